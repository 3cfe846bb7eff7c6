(** Vocabulary for an application that serves what a blueprint document declares *)
From Verif Require Import Base Chars SubstModel ResolveModel ResolveSpec BlueprintModel WfYamlModel WfYamlSpec LoadModel LoadJsonModel.
From Verif Require ApiModel.
From Verif Require Import ApiSpec SetupModel SetupSpec IdModel RouteModel RouteSpec TraceModel ServeModel.
Local Open Scope list_scope.

Section Params.
Variable F : Type.
Variable parse_f64 : text -> option F.
Variable k : classes.
Variable env : text -> option text.
Variable show_i : Z -> text.
Variable show_f : F -> text.
Variable valid : text -> bool.
Variable clash : text -> text -> bool.
Variable body : Type.
Notation mapping := (list (option text * yaml)).
Notation load := (load F parse_f64 k env).
Notation started := (started F show_i show_f).

(** The document was loaded, the application set up for the API asked for, and each handler that setup
    gave was registered. *)
Record running (m : mapping) (asked : option text) (health : bool) (c : ApiModel.api_config) (r : router) : Prop := mk_running {
  rn_once : one_each (YMap m);
  rn_loaded : exists b sv r0, load [YMap m] = Ok b /\ started b asked health (Ok (ApiModel.mk_app (Some c) (Some sv))) /\
    setup_routes valid clash sv = Ok r0 /\ register_all valid clash (Some r0) (http_handlers c) 0 = Ok (Some r) }.
(** The same from the document written in JSON *)
Definition running_json (json_text : text -> option text) (of_int : Z -> F) (m : mapping) (asked : option text) (health : bool) (c : ApiModel.api_config) (r : router) : Prop :=
  exists b sv r0, load_json F parse_f64 k json_text of_int env (YMap m) = Ok b /\ started b asked health (Ok (ApiModel.mk_app (Some c) (Some sv))) /\
    setup_routes valid clash sv = Ok r0 /\ register_all valid clash (Some r0) (http_handlers c) 0 = Ok (Some r).
(** What a handler is given of a request: all that came, with its id *)
Definition given (heads : headers) (line peer id : text) (v : verb) (path : text) (b : body) : http_request body :=
  mk_request heads line (Some peer) (Some id) true (v, path, b).

End Params.
