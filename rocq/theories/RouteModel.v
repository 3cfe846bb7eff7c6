(** Registering handlers and running the servers of an application,
    libs/runtime/core/src/application.rs (below: A).  axum 0.7.5 (third party) is modelled by what
    its documentation says of [Router::route]: it panics on a path that does not begin with a slash, on
    one its matcher cannot take, and on a method that the path already has. *)
From Verif Require Import Base Chars.
From Verif Require ApiModel EnvModel.
Local Open Scope list_scope.

(** The methods with a routing function of their own. (A 358-390). *)
Inductive verb := Get | Head | Options | Trace | Post | Put | Patch | Delete.
(** A 358-390 *)
Definition verb_eq_dec (a b : verb) : {a = b} + {a <> b}.
Proof. decide equality. Defined.
(** A 358-390 *)
Definition verb_eqb (a b : verb) : bool := if verb_eq_dec a b then true else false.
(** What a route leads to: the health check of A 176-183, the WebSocket handler of A 199-206, or a
    handler that was registered *)
Inductive target := Health | WebSocket | User (k : nat).
(** axum: Router::route, as called in A 176-206 and 359-387 *)
Record route := mk_route { rt_path : text; rt_verb : verb; rt_to : target }.
(** axum: the routes of a Router, A 168-206 *)
Definition router := list route.
(** The answer to a request (axum, A 291-338). *)
Inductive answer := Called (t : target) | NotAllowed | NotFound.

(** A 358-390, [method.to_lowercase()].  Simplified: only the letters A to Z are put in lower case;
    no other character becomes a letter of a method's name (the Kelvin sign becomes a k, which no
    name has). *)
Definition verb_of (m : text) : option verb :=
  let m := map EnvModel.lower m in
  if text_eqb m (chars "get") then Some Get
  else if text_eqb m (chars "head") then Some Head
  else if text_eqb m (chars "options") then Some Options
  else if text_eqb m (chars "trace") then Some Trace
  else if text_eqb m (chars "post") then Some Post
  else if text_eqb m (chars "put") then Some Put
  else if text_eqb m (chars "patch") then Some Patch
  else if text_eqb m (chars "delete") then Some Delete
  else None.
(** consts.rs 32 *)
Definition health_path : text := chars "/runtime/health/check".

Section Router.
(** The path matcher (matchit, third party): which paths it takes, which pairs of different paths it
    cannot hold together, and which of the paths it holds a request's path belongs to. *)
Variable valid : text -> bool.
Variable clash : text -> text -> bool.
Variable resolve : list text -> text -> option text.

(** [Router::route(path, get(handler))] and so on. (axum; A 176-206, 359-387). *)
Definition add_route (r : router) (p : text) (v : verb) (t : target) : outcome unit router :=
  if negb (starts_with (chars "/") p) then Panic
  else if negb (valid p) then Panic
  else if existsb (fun x => negb (text_eqb (rt_path x) p) && clash (rt_path x) p) r then Panic
  else if existsb (fun x => text_eqb (rt_path x) p && verb_eqb (rt_verb x) v) r then Panic
  else Ok (r ++ [mk_route p v t]).
(** Which handler a request reaches: that of the route; a route for GET also takes HEAD. (axum; A 322-334). *)
Definition find_route (r : router) (p : text) (v : verb) : option route :=
  find (fun x => text_eqb (rt_path x) p && verb_eqb (rt_verb x) v) r.
(** axum, for the router served in A 322-334 *)
Definition dispatch (r : router) (v : verb) (path : text) : answer :=
  match resolve (map rt_path r) path with
  | None => NotFound
  | Some p =>
      match find_route r p v with
      | Some x => Called (rt_to x)
      | None =>
          match v with
          | Head => match find_route r p Get with Some x => Called (rt_to x) | None => NotAllowed end
          | _ => NotAllowed
          end
      end
  end.

(** A 349-391: without a server there is nothing to register with; an unknown method is ignored *)
Definition register (o : option router) (path method : text) (t : target) : outcome unit (option router) :=
  match o with
  | None => Ok None
  | Some r => match verb_of method with None => Ok (Some r) | Some v => omap Some (add_route r path v t) end
  end.
(** A 166-210: the routes that setup makes itself *)
Definition setup_routes (s : ApiModel.server) : outcome unit router :=
  let! r := if ApiModel.sv_health s then add_route [] health_path Get Health else Ok [] in
  match ApiModel.sv_ws s with Some (p, _, _) => add_route r p Get WebSocket | None => Ok r end.
(** What an SDK does with the handlers that setup returns, sdk/node/README and the CLI templates:
    it registers each at its path and method, in order. It calls A 349-391 in a loop. *)
Fixpoint register_all (o : option router) (hs : list ApiModel.handler) (k : nat) : outcome unit (option router) :=
  match hs with
  | [] => Ok o
  | h :: hs => let! o := register o (snd (ApiModel.h_at h)) (fst (ApiModel.h_at h)) (User k) in register_all o hs (S k)
  end.

(** The application over time, A 26-71.  A server keeps the routes it was started with (run clones
    the router, A 238); its task ends once its shutdown channel has been used or dropped (A 300-308,
    [rx.await.ok()]).  Simplified: telemetry is left out, and the only failure of [run] is a port
    that cannot be bound, which panics. *)
Record task := mk_task { tk_routes : router; tk_told : bool; tk_alive : bool }.
(** The signals are positions in the list of tasks. A 44-55. *)
Record life := mk_life { lf_routes : option router; lf_local : option router; lf_signal : option nat; lf_local_signal : option nat; lf_tasks : list task }.
(** A 58-71 *)
Definition new : life := mk_life None None None None [].
(** The task that a sender kept in A 52-55 belongs to *)
Definition on_task (f : task -> task) (o : option nat) (ts : list task) : list task :=
  match o with
  | None => ts
  | Some i => map (fun p => if Nat.eqb (fst p) i then f (snd p) else snd p) (combine (seq 0 (length ts)) ts)
  end.
(** A 395, 399: send *)
Definition tell (t : task) : task := mk_task (tk_routes t) true (tk_alive t).
(** A 279-286, 322-334: the task ends *)
Definition finish (t : task) : task := mk_task (tk_routes t) (tk_told t) false.
(** A 272-338: start a task and keep the sender of its signal; the sender kept before is dropped *)
Definition start (r : option router) (sig : option nat) (ts : list task) (bound : bool) : outcome unit (option nat * list task) :=
  match r with
  | None => Ok (sig, ts)
  | Some r => if bound then Ok (Some (length ts), on_task tell sig ts ++ [mk_task r false true]) else Panic
  end.
(** A 393-402: [send] fails, and [expect] panics, if the task, with the receiver, is gone *)
Definition stop (sig : option nat) (ts : list task) : outcome unit (list task) :=
  match sig with
  | None => Ok ts
  | Some i => match nth_error ts i with
              | Some t => if tk_alive t then Ok (on_task tell sig ts) else Panic
              | None => Panic
              end
  end.
(** What happens to an application: a setup that succeeded, with the server and, in the HTTP call
    mode, the local API it made; a registration; a run, with whether each port could be bound;
    a shutdown; the end of a task that was told to stop; and the end of the asynchronous runtime that
    all tasks run on. A 73-129, 228-270, 272-338, 349-402. *)
Inductive act :=
| Setup (s : option ApiModel.server) (local : option router)
| Register (path method : text) (t : target)
| Run (bound bound_local : bool)
| Shutdown
| Ended (i : nat)
| RuntimeGone.
(** A 73-129: what setup does not make anew stays *)
Definition or_kept {A} (o d : option A) : option A := match o with Some _ => o | None => d end.
(** A 73-129, 228-402 *)
Definition step (l : life) (a : act) : outcome unit life :=
  match a with
  | Setup s local =>
      let! r := match s with Some s => omap Some (setup_routes s) | None => Ok (lf_routes l) end in
      Ok (mk_life r (or_kept local (lf_local l)) (lf_signal l) (lf_local_signal l) (lf_tasks l))
  | Register p m t =>
      let! r := register (lf_routes l) p m t in
      Ok (mk_life r (lf_local l) (lf_signal l) (lf_local_signal l) (lf_tasks l))
  | Run b b' =>
      let! (sig, ts) := start (lf_routes l) (lf_signal l) (lf_tasks l) b in
      let! (sig', ts) := start (lf_local l) (lf_local_signal l) ts b' in
      Ok (mk_life (lf_routes l) (lf_local l) sig sig' ts)
  | Shutdown =>
      let! ts := stop (lf_signal l) (lf_tasks l) in
      let! ts := stop (lf_local_signal l) ts in
      Ok (mk_life (lf_routes l) (lf_local l) None None ts)
  | Ended i =>
      Ok (mk_life (lf_routes l) (lf_local l) (lf_signal l) (lf_local_signal l)
            (map (fun p => if Nat.eqb (fst p) i && tk_told (snd p) then finish (snd p) else snd p) (combine (seq 0 (length (lf_tasks l))) (lf_tasks l))))
  | RuntimeGone => Ok (mk_life (lf_routes l) (lf_local l) (lf_signal l) (lf_local_signal l) (map finish (lf_tasks l)))
  end.
(** A 73-129, 228-402, in order *)
Fixpoint steps (l : life) (acts : list act) : outcome unit life :=
  match acts with [] => Ok l | a :: acts => let! l := step l a in steps l acts end.
End Router.
