(** Setting up an application from its blueprint file: libs/runtime/core/src/application.rs (A)
    73-87 and 340-347, with [LoadModel], [LoadJsonModel] and [ApiModel] put together.  The view of a
    loaded blueprint that [ApiModel] starts from is built here. *)
From Verif Require Import Base Chars SubstModel ResolveModel BlueprintModel SpecResolveModel LoadModel LoadJsonModel.
From Verif Require ApiModel ApiSpec.
Local Open Scope list_scope.

Section Params.
Variable F : Type.
Variable parse_f64 : text -> option F.
Variable k : classes.
Variable env : text -> option text.
(** What [Display] writes for a whole number and for another one *)
Variable show_i : Z -> text.
Variable show_f : F -> text.

(** blueprint.rs 104-120 *)
Definition view_scalar (s : scalar F) : ApiModel.scalar :=
  match s with
  | SStr _ t => ApiModel.SStr t
  | SInt _ z => ApiModel.SNum (show_i z)
  | SFloat _ f => ApiModel.SNum (show_f f)
  | SBool _ b => ApiModel.SBool b
  end.
(** blueprint.rs 163-184 *)
Definition view_type (t : rtype) : ApiModel.rtype :=
  match t with
  | THandler => ApiModel.THandler
  | TApi => ApiModel.TApi
  | THandlerConfig => ApiModel.THandlerConfig
  | _ => ApiModel.TOther
  end.
(** blueprint.rs 334-355; the authentication strategy is not used *)
Definition view_protocol (p : protocol) : ApiModel.protocol :=
  match p with Http => ApiModel.PHttp | WebSocket => ApiModel.PWebSocket | WebSocketConfig key _ => ApiModel.PWebSocketConfig key end.
(** blueprint.rs 759-775 *)
Definition view_shared (x : rshared) : ApiModel.source := ApiModel.mk_source (rhc_location x) (rhc_timeout x) (rhc_tracing x).
(** blueprint.rs 222-234, 239-259, 279-290 *)
Definition view_spec (s : rspec F) : ApiModel.spec :=
  match s with
  | RHandler _ h => ApiModel.SpHandler (ApiModel.mk_source (rha_location h) (rha_timeout h) (rha_tracing h))
  | RShared _ x => ApiModel.SpHandlerConfig (view_shared x)
  | RApi _ a => ApiModel.SpApi (map view_protocol (rap_protocols a)) (rap_tracing a)
  | _ => ApiModel.SpOther
  end.
(** An entry of a HashMap, for blueprint.rs 42-51 and 189-196 *)
Definition view_entry {A B} (f : A -> B) (e : text * A) : text * B := (fst e, f (snd e)).
(** blueprint.rs 130-140, 189-196, 211-214 *)
Definition view_resource (r : loaded_resource F) : ApiModel.resource :=
  ApiModel.mk_resource (view_type (rr_type _ _ _ r)) (rme_labels F (rr_meta _ _ _ r))
    (option_map (map (view_entry view_scalar)) (rme_annotations F (rr_meta _ _ _ r))) (view_spec (rr_spec _ _ _ r)) (rr_sel _ _ _ r).
(** blueprint.rs 42-51, 750-756 *)
Definition view (b : loaded F) : ApiModel.blueprint :=
  ApiModel.mk_blueprint (map (view_entry view_resource) (rb_res _ _ _ _ _ b))
    (match rb_meta _ _ _ _ _ b with Some (Some x) => Some (view_shared x) | _ => None end).

(** What the two crates that read files make of the content of one; not modelled *)
Variable json_text : text -> option text.
Variable of_int : Z -> F.
Variable read_yaml : text -> option (list yaml).
Variable read_jsonc : text -> option yaml.
(** [str::ends_with], A 342 *)
Definition ends_with (suffix t : text) : bool :=
  match skipn (length t - length suffix) t with u => text_eqb u suffix end.
(** A 340-347; parse.rs 16-31 and 51-62: a file that cannot be read or is not of its format is an
    error *)
Definition load_file (path : text) (content : option text) : outcome berr (loaded F) :=
  match content with
  | None => Err EFormat
  | Some c =>
      if ends_with (chars ".json") path || ends_with (chars ".jsonc") path
      then match read_jsonc c with Some d => load_json F parse_f64 k json_text of_int env d | None => Err EFormat end
      else match read_yaml c with Some docs => load F parse_f64 k env docs | None => Err EFormat end
  end.

(** A 73-87: an error of either kind stops the setup.  The maps of the blueprint are iterated in any
    order. *)
Inductive started (b : loaded F) (name : option text) (custom_health : bool) : outcome ApiModel.cerr ApiModel.application -> Prop :=
| st_order b' : ApiSpec.same_blueprint (view b) b' -> started b name custom_health (ApiModel.setup b' name custom_health).
End Params.
