(** Vocabulary for C120 to C122: what a YAML blueprint document stands for. *)
From Verif Require Import Base Chars SubstModel ResolveModel ResolveSpec BlueprintModel WfYamlModel WfYamlSpec SpecYamlModel SpecYamlSpec WfResolveSpec SpecResolveModel SpecResolveSpec LoadModel.
Local Open Scope list_scope.

(** The types of resources a YAML document may use *)
Definition type_names : list (text * rtype) :=
  [(chars "celerity/api", TApi); (chars "celerity/consumer", TConsumer); (chars "celerity/schedule", TSchedule);
   (chars "celerity/handler", THandler); (chars "celerity/handlerConfig", THandlerConfig); (chars "celerity/workflow", TWorkflow)].
Definition is_a_text (v : yaml) : Prop := exists t, v = YStr t.

Section Params.
Variable F : Type.
Variable parse_f64 : text -> option F.
Variable k : classes.
Variable env : text -> option text.
Notation mapping := (list (option text * yaml)).

(** The metadata of a resource that has none *)
Definition no_metadata : rmetadata F := {| rme_name := []; rme_annotations := None; rme_labels := None |}.
Definition metadata_loads (m : mapping) (r : rmetadata F) : Prop := exists x, is_metadata F parse_f64 k m x /\ metadata_is F parse_f64 env x r.
Definition spec_loads (ty : rtype) (m : mapping) (r : rspec F) : Prop := exists s, is_spec F parse_f64 k ty m s /\ spec_is F parse_f64 env s r.
Definition shared_loads (m : mapping) (r : rshared) : Prop := exists x, is_shared F k m x /\ shared_is F parse_f64 env x r.

(** A resource *)
Definition resource_loads (m : mapping) (r : loaded_resource F) : Prop :=
  (exists t, In (Some (chars "type"), YStr t) m /\ In (t, rr_type _ _ _ r) type_names) /\
  defaults m (chars "metadata") (is_mapping metadata_loads) no_metadata (rr_meta _ _ _ r) /\
  optional m (chars "linkSelector") (is_mapping is_selector) (rr_sel _ _ _ r) /\
  optional m (chars "description") is_string (rr_desc _ _ _ r) /\
  required m (chars "spec") (is_mapping (spec_loads (rr_type _ _ _ r))) (rr_spec _ _ _ r).
(** The resources: those of another type are ignored. *)
Inductive resources_load : list (text * mapping) -> list (text * loaded_resource F) -> Prop :=
| rl_none : resources_load [] []
| rl_ignored name m t l rs : In (Some (chars "type"), YStr t) m -> ~ In t (map fst type_names) ->
    resources_load l rs -> resources_load ((name, m) :: l) rs
| rl_kept name m r l rs : resource_loads m r -> resources_load l rs -> resources_load ((name, m) :: l) ((name, r) :: rs).
(** The document *)
Definition document_loads (m : mapping) (b : loaded F) : Prop :=
  In (Some (chars "version"), YStr (chars "2025-05-12")) m /\ rb_version _ _ _ _ _ b = chars "2025-05-12" /\
  lenient m (chars "transform") is_a_text (fun v l => exists t, v = YStr t /\ l = [t]) (rb_transform _ _ _ _ _ b) /\
  lenient m (chars "variables") is_a_mapping (is_mapping (are_vars F parse_f64)) (rb_vars _ _ _ _ _ b) /\
  (exists rs, In (Some (chars "resources"), YMap rs) m /\ resources_load (named_maps rs) (rb_res _ _ _ _ _ b)) /\
  rb_res _ _ _ _ _ b <> [] /\
  ((exists mm w r, In (Some (chars "metadata"), YMap mm) m /\ In (Some (chars "sharedHandlerConfig"), YMap w) mm /\ shared_loads w r /\ rb_meta _ _ _ _ _ b = Some (Some r)) \/
   ((forall mm w, In (Some (chars "metadata"), YMap mm) m -> ~ In (Some (chars "sharedHandlerConfig"), YMap w) mm) /\ rb_meta _ _ _ _ _ b = None)).
End Params.
