(** Vocabulary for C127 to C129: what a JSON blueprint document stands for. *)
From Verif Require Import Base Chars SubstModel ResolveModel ResolveSpec BlueprintModel WfYamlModel WfYamlSpec SpecYamlModel SpecYamlSpec SpecJsonModel SpecJsonSpec
  WfResolveSpec SpecResolveModel SpecResolveSpec LoadModel LoadSpec.
Local Open Scope list_scope.

(** The types of resources a JSON document may use *)
Definition json_type_names : list (text * rtype) :=
  type_names ++ [(chars "celerity/config", TConfig); (chars "celerity/bucket", TBucket); (chars "celerity/topic", TTopic); (chars "celerity/queue", TQueue)].
(** The members of a resource, and those of a blueprint that mean something *)
Definition resource_members : list text := map chars ["type"; "metadata"; "spec"; "description"; "linkSelector"]%string.
Definition blueprint_members : list text := map chars ["version"; "transform"; "variables"; "resources"; "metadata"]%string.
Definition only_members (names : list text) (m : list (option text * yaml)) : Prop := forall e, In e m -> exists key, fst e = Some key /\ In key names.
(** [given m key R o]: the member is there at most once; what it declares, if it is there *)
Definition given {A} (m : list (option text * yaml)) (key : text) (R : yaml -> A -> Prop) (o : option A) : Prop :=
  occurs_once key m /\ ((exists v a, In (Some key, v) m /\ R v a /\ o = Some a) \/ (~ In key (keys_of m) /\ o = None)).
(** [last_given m key R o]: it may be there several times; each has to be right and the last counts *)
Definition last_given {A} (m : list (option text * yaml)) (key : text) (R : yaml -> A -> Prop) (o : option A) : Prop :=
  (forall v, In (Some key, v) m -> exists a, R v a) /\
  ((exists pre v post a, m = pre ++ (Some key, v) :: post /\ ~ In key (keys_of post) /\ R v a /\ o = Some a) \/ (~ In key (keys_of m) /\ o = None)).
(** [comes_first m key key']: the second comes only after the first *)
Definition comes_first (m : list (option text * yaml)) (key key' : text) : Prop :=
  forall pre v post, m = pre ++ (Some key', v) :: post -> In key (keys_of pre).
Definition json_type_is (v : yaml) (ty : rtype) : Prop := exists t, v = YStr t /\ In (t, ty) json_type_names.
(** A transform: a text, or an array of texts *)
Definition json_transform_is (v : yaml) (l : list text) : Prop := (exists t, v = YStr t /\ l = [t]) \/ v = YSeq (map YStr l).

Section Params.
Variable F : Type.
Variable parse_f64 : text -> option F.
Variable k : classes.
Variable json_text : text -> option text.
Variable of_int : Z -> F.
Variable env : text -> option text.
Notation mapping := (list (option text * yaml)).
(** A resource before its references are resolved *)
Notation declared := (resource (metadata F) (list (text * text)) (spec F)).

Definition resource_declares (m : mapping) (r : declared) : Prop :=
  only_members resource_members m /\
  given m (chars "type") json_type_is (Some (r_type _ _ _ r)) /\
  last_given m (chars "metadata") (json_metadata F parse_f64 k json_text) (r_meta _ _ _ r) /\
  given m (chars "description") is_string (r_desc _ _ _ r) /\
  given m (chars "linkSelector") json_selector (r_sel _ _ _ r) /\
  given m (chars "spec") (json_spec F parse_f64 k json_text (r_type _ _ _ r)) (r_spec _ _ _ r) /\
  comes_first m (chars "type") (chars "spec").
(** A resource of another type: what comes before its type has to be right, what comes after it only
    has to have the right names. *)
Definition resource_ignored (m : mapping) : Prop :=
  only_members resource_members m /\
  exists pre t post, m = pre ++ (Some (chars "type"), YStr t) :: post /\ ~ In t (map fst json_type_names) /\
    ~ In (chars "type") (keys_of pre) /\ ~ In (chars "spec") (keys_of pre) /\
    (exists o, last_given pre (chars "metadata") (json_metadata F parse_f64 k json_text) o) /\
    (exists o, given pre (chars "description") is_string o) /\
    (exists o, given pre (chars "linkSelector") json_selector o).
(** The resources of a document: those that are null and those of another type are ignored. *)
Inductive resources_declare : mapping -> list (text * declared) -> Prop :=
| rd_none : resources_declare [] []
| rd_null name l rs : resources_declare l rs -> resources_declare ((Some name, YNull) :: l) rs
| rd_ignored name m l rs : resource_ignored m -> resources_declare l rs -> resources_declare ((Some name, YMap m) :: l) rs
| rd_kept name m r l rs : resource_declares m r -> resources_declare l rs -> resources_declare ((Some name, YMap m) :: l) ((name, r) :: rs).
Definition metadata_stands (o : option (metadata F)) (r : rmetadata F) : Prop :=
  (exists x, o = Some x /\ metadata_is F parse_f64 env x r) \/ (o = None /\ r = no_metadata F).
(** What they stand for: those without a spec are dropped. *)
Inductive resources_stand : list (text * declared) -> list (text * loaded_resource F) -> Prop :=
| rs_none : resources_stand [] []
| rs_dropped name r me l rs : r_spec _ _ _ r = None -> metadata_stands (r_meta _ _ _ r) me -> resources_stand l rs -> resources_stand ((name, r) :: l) rs
| rs_kept name r s me sp l rs : r_spec _ _ _ r = Some s -> metadata_stands (r_meta _ _ _ r) me -> spec_is F parse_f64 env s sp -> resources_stand l rs ->
    resources_stand ((name, r) :: l) ((name, {| rr_type := r_type _ _ _ r; rr_meta := me; rr_spec := sp; rr_desc := r_desc _ _ _ r; rr_sel := r_sel _ _ _ r |}) :: rs).
(** The metadata of a blueprint *)
Definition shared_stands (v : yaml) (o : option rshared) : Prop :=
  exists x, json_blueprint_metadata F parse_f64 k json_text v x /\ both (shared_is F parse_f64 env) x o.
(** The document; members of other names are ignored. *)
Definition json_loads (m : mapping) (b : loaded F) : Prop :=
  (forall e, In e m -> fst e <> None) /\ (forall key, In key blueprint_members -> occurs_once key m) /\
  In (Some (chars "version"), YStr (chars "2025-05-12")) m /\ rb_version _ _ _ _ _ b = chars "2025-05-12" /\
  (exists v l, In (Some (chars "transform"), v) m /\ json_transform_is v l /\ rb_transform _ _ _ _ _ b = Some l) /\
  field_opt blueprint_members (YMap m) (chars "variables") (is_object (json_var F parse_f64 of_int)) (rb_vars _ _ _ _ _ b) /\
  (forall vs name x, rb_vars _ _ _ _ _ b = Some vs -> In (name, x) vs -> va_type F x <> []) /\
  (exists rs ds, In (Some (chars "resources"), YMap rs) m /\ resources_declare rs ds /\ resources_stand (last_ones ds) (rb_res _ _ _ _ _ b)) /\
  rb_res _ _ _ _ _ b <> [] /\
  field_opt blueprint_members (YMap m) (chars "metadata") shared_stands (rb_meta _ _ _ _ _ b).
End Params.
