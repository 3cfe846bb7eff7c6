(** Loading a blueprint from JSON, with the readers and the resolvers put in place:
    libs/runtime/blueprint-config-parser/src/parse.rs 16-49 *)
From Verif Require Import Base Chars SubstModel ResolveModel BlueprintModel SpecYamlModel SpecJsonModel SpecResolveModel LoadModel.
Local Open Scope list_scope.

Section Params.
Variable F : Type.
Variable parse_f64 : text -> option F.
Variable k : classes.
Variable json_text : text -> option text.
Variable of_int : Z -> F.
Variable env : text -> option text.

(** parse.rs 20-31, 37-49: the tree of a JSON text without comments; blueprint_with_subs.rs 12-26
    and validate_parsed.rs 10-36 are in the generic model *)
Definition load_json (d : yaml) : outcome berr (loaded F) :=
  from_json (metadata F) (list (text * text)) (spec F) (list (text * var F)) (option (shared F)) (rmetadata F) (rspec F) (option rshared)
    (fun v => ok (j_metadata F parse_f64 k json_text v)) (fun v => ok (j_selector v)) (fun ty v => ok (j_spec F parse_f64 k json_text ty v))
    (fun v => ok (j_vars F parse_f64 of_int v)) (fun v => ok (j_blueprint_metadata F parse_f64 k json_text v)) (typed_vars F)
    (load_metadata F parse_f64 env) (fun _ s => ok (resolve_spec F parse_f64 env s)) (fun o => ok (resolve_blueprint_metadata F parse_f64 env o)) d.
End Params.
