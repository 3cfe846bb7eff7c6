(** Loading a blueprint from YAML, with the readers and the resolvers put in place:
    libs/runtime/blueprint-config-parser/src/parse.rs 50-82 *)
From Verif Require Import Base Chars SubstModel ResolveModel BlueprintModel WfYamlModel SpecYamlModel SpecResolveModel.
Local Open Scope list_scope.

(** [?] on the result of a reader or a resolver: the error is not looked at.  That none of them
    panics is part of C120. *)
Definition ok {E A} (o : outcome E A) : option A := match o with Ok a => Some a | _ => None end.
(** A reader of mappings; the callers only use them on mappings (parse_yaml.rs 58-74, 248-287) *)
Definition on_map {E A} (f : list (option text * yaml) -> outcome E A) (v : yaml) : option A :=
  match v with YMap m => ok (f m) | _ => None end.

Section Params.
Variable F : Type.
Variable parse_f64 : text -> option F.
Variable k : classes.
Variable env : text -> option text.

(** resolve_substitutions.rs 1570-1608; a resource without metadata has the default of
    blueprint_with_subs.rs 39-52 *)
Definition load_metadata (name : text) (o : option (metadata F)) : option (rmetadata F) :=
  ok (resolve_metadata F parse_f64 env (match o with Some x => x | None => empty_metadata F end)).
(** blueprint.rs 129-140 *)
Definition loaded_resource : Type := rresource (list (text * text)) (rmetadata F) (rspec F).
(** blueprint.rs 40-51 *)
Definition loaded : Type := rblueprint (list (text * text)) (list (text * var F)) (rmetadata F) (rspec F) (option rshared).
(** parse.rs 56-66: the documents of a YAML text *)
Definition load (docs : list yaml) : outcome berr loaded :=
  from_yaml (metadata F) (list (text * text)) (spec F) (list (text * var F)) (option (shared F)) (rmetadata F) (rspec F) (option rshared)
    (on_map (y_metadata F parse_f64 k)) (on_map y_selector) (fun ty => on_map (y_spec F parse_f64 k ty)) (on_map (y_vars F parse_f64)) (on_map (y_blueprint_metadata F k))
    load_metadata (fun _ s => ok (resolve_spec F parse_f64 env s)) (fun o => ok (resolve_blueprint_metadata F parse_f64 env o)) docs.
End Params.
