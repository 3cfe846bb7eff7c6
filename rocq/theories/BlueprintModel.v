(** Reading a blueprint document: which resources are kept.
    libs/runtime/blueprint-config-parser/src/parse.rs, parse_yaml.rs, parse_helpers.rs,
    parse_blueprint_resource.rs, validate_parsed.rs and resolve_substitutions.rs *)
From Verif Require Import Base Chars.
From Verif Require Export Yaml.
Local Open Scope list_scope.

(** blueprint.rs 163-184 *)
Inductive rtype := TApi | TConsumer | TSchedule | THandler | THandlerConfig | TWorkflow | TConfig | TBucket | TTopic | TQueue.

(** [UnsupportedResourceType] and every other parse error; a resolve error. parse.rs 85-96. *)
Inductive berr := EUnsupported | EFormat | EResolve.

Section Params.
(** Metadata, link selector, spec, variables and blueprint metadata, with what reads them from a
    value and what resolves them. *)
Variables M L S V B RM RS RB : Type.
Variable read_meta : yaml -> option M.
Variable read_selector : yaml -> option L.
Variable read_spec : rtype -> yaml -> option S.
Variable read_vars : yaml -> option V.
Variable read_bmeta : yaml -> option B.
Variable vars_typed : V -> bool.
Variable resolve_meta : text -> option M -> option RM.
Variable resolve_spec : text -> S -> option RS.
Variable resolve_bmeta : B -> option RB.

(** blueprint_with_subs.rs 29-37; [None] is the default metadata and [NoSpec] *)
Record resource := { r_type : rtype; r_meta : option M; r_spec : option S; r_desc : option text; r_sel : option L }.
(** blueprint_with_subs.rs 12-26; a [HashMap] is a list of entries with distinct keys *)
Record blueprint := { b_version : text; b_transform : option (list text); b_vars : option V; b_res : list (text * resource); b_meta : option B }.
(** blueprint.rs, the same after resolution. blueprint.rs 129-140. *)
Record rresource := { rr_type : rtype; rr_meta : RM; rr_spec : RS; rr_desc : option text; rr_sel : option L }.
(** blueprint.rs 40-51 *)
Record rblueprint := { rb_version : text; rb_transform : option (list text); rb_vars : option V; rb_res : list (text * rresource); rb_meta : option RB }.

(** An error of a read is a parse error: the ? of parse_yaml.rs 48-76, 251-279 *)
Definition need {A} (o : option A) : outcome berr A := match o with Some a => Ok a | None => Err EFormat end.
(** HashMap::insert, parse_yaml.rs 203, parse_helpers.rs 84-90 *)
Definition put {A} (k : text) (v : A) (m : list (text * A)) : list (text * A) :=
  filter (fun e => negb (text_eqb (fst e) k)) m ++ [(k, v)].
(** blueprint.rs 7 *)
Definition version_text : text := chars "2025-05-12".

(** parse_yaml.rs 300-314 *)
Definition yaml_type (t : text) : outcome berr rtype :=
  if text_eqb t (chars "celerity/api") then Ok TApi
  else if text_eqb t (chars "celerity/consumer") then Ok TConsumer
  else if text_eqb t (chars "celerity/schedule") then Ok TSchedule
  else if text_eqb t (chars "celerity/handler") then Ok THandler
  else if text_eqb t (chars "celerity/handlerConfig") then Ok THandlerConfig
  else if text_eqb t (chars "celerity/workflow") then Ok TWorkflow
  else Err EUnsupported.
(** [Hash::get]. (parse_yaml.rs 232). *)
Fixpoint get (k : text) (m : list (option text * yaml)) : option yaml :=
  match m with
  | [] => None
  | (Some k', v) :: m' => if text_eqb k' k then Some v else get k m'
  | (None, _) :: m' => get k m'
  end.
(** The patterns of parse_yaml.rs 200, 250, 259, 277 *)
Definition is_map (v : yaml) : bool := match v with YMap _ => true | _ => false end.
(** parse_yaml.rs 248-287: one entry of a resource *)
Definition yaml_field (r : resource) (e : option text * yaml) : outcome berr resource :=
  match fst e with
  | None => Ok r
  | Some key =>
      if text_eqb key (chars "metadata") then
        if is_map (snd e) then let! m := need (read_meta (snd e)) in
          Ok {| r_type := r_type r; r_meta := Some m; r_spec := r_spec r; r_desc := r_desc r; r_sel := r_sel r |}
        else Err EFormat
      else if text_eqb key (chars "linkSelector") then
        if is_map (snd e) then let! l := need (read_selector (snd e)) in
          Ok {| r_type := r_type r; r_meta := r_meta r; r_spec := r_spec r; r_desc := r_desc r; r_sel := Some l |}
        else Err EFormat
      else if text_eqb key (chars "description") then
        match snd e with
        | YStr t => Ok {| r_type := r_type r; r_meta := r_meta r; r_spec := r_spec r; r_desc := Some t; r_sel := r_sel r |}
        | _ => Err EFormat
        end
      else if text_eqb key (chars "spec") then
        if is_map (snd e) then let! s := need (read_spec (r_type r) (snd e)) in
          Ok {| r_type := r_type r; r_meta := r_meta r; r_spec := Some s; r_desc := r_desc r; r_sel := r_sel r |}
        else Err EFormat
      else Ok r
  end.
(** A loop that ? may leave, parse_yaml.rs 44-79, 198-220, 246-289 *)
Fixpoint fold_outcome {A E X} (f : X -> A -> outcome E X) (x : X) (l : list A) : outcome E X :=
  match l with [] => Ok x | a :: l' => let! y := f x a in fold_outcome f y l' end.
(** parse_yaml.rs 225-298 *)
Definition yaml_resource (m : list (option text * yaml)) : outcome berr resource :=
  match get (chars "type") m with
  | Some (YStr t) =>
      let! ty := yaml_type t in
      let! r := fold_outcome yaml_field {| r_type := ty; r_meta := None; r_spec := None; r_desc := None; r_sel := None |} m in
      match r_spec r with None => Err EFormat | Some _ => Ok r end
  | _ => Err EFormat
  end.
(** parse_yaml.rs 193-223 *)
Definition yaml_resources_step (rs : list (text * resource)) (e : option text * yaml) : outcome berr (list (text * resource)) :=
  match e with
  | (Some name, YMap m) =>
      match yaml_resource m with
      | Ok r => Ok (put name r rs)
      | Err EUnsupported => Ok rs
      | Err x => Err x
      | Panic => Panic
      end
  | _ => Ok rs
  end.
(** parse_yaml.rs 193-223 *)
Definition yaml_resources (m : list (option text * yaml)) : outcome berr (list (text * resource)) :=
  fold_outcome yaml_resources_step [] m.
(** parse_yaml.rs 1703-1719: metadata without a shared handler configuration sets nothing *)
Definition sets_shared (m : list (option text * yaml)) : bool :=
  existsb (fun e => match e with (Some key, YMap _) => text_eqb key (chars "sharedHandlerConfig") | _ => false end) m.
(** blueprint_with_subs.rs 12-27 (Default), parse_yaml.rs 41 *)
Definition empty_blueprint : blueprint := {| b_version := []; b_transform := None; b_vars := None; b_res := []; b_meta := None |}.
(** parse_yaml.rs 44-79: one entry of the document *)
Definition yaml_entry (b : blueprint) (e : option text * yaml) : outcome berr blueprint :=
  match e with
  | (Some key, YStr t) =>
      if text_eqb key (chars "version") then
        if text_eqb t version_text
        then Ok {| b_version := t; b_transform := b_transform b; b_vars := b_vars b; b_res := b_res b; b_meta := b_meta b |}
        else Err EFormat
      else if text_eqb key (chars "transform") then
        Ok {| b_version := b_version b; b_transform := Some [t]; b_vars := b_vars b; b_res := b_res b; b_meta := b_meta b |}
      else Ok b
  | (Some key, YMap m) =>
      if text_eqb key (chars "variables") then
        let! v := need (read_vars (YMap m)) in
        Ok {| b_version := b_version b; b_transform := b_transform b; b_vars := Some v; b_res := b_res b; b_meta := b_meta b |}
      else if text_eqb key (chars "resources") then
        let! rs := yaml_resources m in
        Ok {| b_version := b_version b; b_transform := b_transform b; b_vars := b_vars b; b_res := rs; b_meta := b_meta b |}
      else if text_eqb key (chars "metadata") then
        if sets_shared m then
          let! x := need (read_bmeta (YMap m)) in
          Ok {| b_version := b_version b; b_transform := b_transform b; b_vars := b_vars b; b_res := b_res b; b_meta := Some x |}
        else Ok b
      else Ok b
  | _ => Ok b
  end.
(** parse_yaml.rs 38-96 *)
Definition yaml_blueprint (d : yaml) : outcome berr blueprint :=
  match d with
  | YMap m =>
      let! b := fold_outcome yaml_entry empty_blueprint m in
      match b_version b, b_res b with
      | [], _ => Err EFormat
      | _, [] => Err EFormat
      | _, _ => Ok b
      end
  | _ => Err EFormat
  end.

(** resolve_substitutions.rs 183-204, 206-220, 223-276: a resource without a spec is dropped *)
Fixpoint resolve_resources (rs : list (text * resource)) : outcome berr (list (text * rresource)) :=
  match rs with
  | [] => Ok []
  | (name, r) :: rs' =>
      match resolve_meta name (r_meta r) with
      | None => Err EResolve
      | Some m =>
          match r_spec r with
          | None => resolve_resources rs'
          | Some s =>
              match resolve_spec name s with
              | None => Err EResolve
              | Some s' =>
                  let! l := resolve_resources rs' in
                  Ok ((name, {| rr_type := r_type r; rr_meta := m; rr_spec := s'; rr_desc := r_desc r; rr_sel := r_sel r |}) :: l)
              end
          end
      end
  end.
(** resolve_substitutions.rs 96-107, 110-127 *)
Definition resolve_blueprint (b : blueprint) : outcome berr rblueprint :=
  let! rs := resolve_resources (b_res b) in
  match b_meta b with
  | None => Ok {| rb_version := b_version b; rb_transform := b_transform b; rb_vars := b_vars b; rb_res := rs; rb_meta := None |}
  | Some x => match resolve_bmeta x with
              | None => Err EResolve
              | Some y => Ok {| rb_version := b_version b; rb_transform := b_transform b; rb_vars := b_vars b; rb_res := rs; rb_meta := Some y |}
              end
  end.
(** parse.rs 56-81 after the YAML loader, which gives a list of documents: [docs[0]] panics when
    there is none *)
Definition from_yaml (docs : list yaml) : outcome berr rblueprint :=
  match docs with
  | [] => Panic
  | d :: _ => let! b := yaml_blueprint d in resolve_blueprint b
  end.

(** blueprint.rs 163-184, the derived [Deserialize]: [None] is an unknown variant *)
Definition json_type (t : text) : option rtype :=
  if text_eqb t (chars "celerity/handler") then Some THandler
  else if text_eqb t (chars "celerity/api") then Some TApi
  else if text_eqb t (chars "celerity/consumer") then Some TConsumer
  else if text_eqb t (chars "celerity/schedule") then Some TSchedule
  else if text_eqb t (chars "celerity/handlerConfig") then Some THandlerConfig
  else if text_eqb t (chars "celerity/workflow") then Some TWorkflow
  else if text_eqb t (chars "celerity/config") then Some TConfig
  else if text_eqb t (chars "celerity/bucket") then Some TBucket
  else if text_eqb t (chars "celerity/topic") then Some TTopic
  else if text_eqb t (chars "celerity/queue") then Some TQueue
  else None.
(** parse_blueprint_resource.rs 16-25: a key that is none of these is an error *)
Inductive field := FType | FMeta | FSpec | FDesc | FSel.
(** parse_blueprint_resource.rs 16-25: the derived field visitor *)
Definition field_of (key : option text) : option field :=
  match key with
  | None => None
  | Some t =>
      if text_eqb t (chars "type") then Some FType
      else if text_eqb t (chars "metadata") then Some FMeta
      else if text_eqb t (chars "spec") then Some FSpec
      else if text_eqb t (chars "description") then Some FDesc
      else if text_eqb t (chars "linkSelector") then Some FSel
      else None
  end.
(** parse_blueprint_resource.rs 110-115: the variables of the visitor *)
Record jstate := { j_type : option rtype; j_meta : option M; j_spec : option S; j_desc : option text; j_sel : option L; j_unsup : bool }.
(** parse_blueprint_resource.rs 116-185: one entry.  The description is a string. *)
Definition json_field (s : jstate) (e : option text * yaml) : outcome berr jstate :=
  match field_of (fst e) with
  | None => Err EFormat
  | Some f =>
      if j_unsup s then Ok s
      else
        match f with
        | FType =>
            match j_type s with
            | Some _ => Err EFormat
            | None =>
                match snd e with
                | YStr t =>
                    match json_type t with
                    | Some ty => Ok {| j_type := Some ty; j_meta := j_meta s; j_spec := j_spec s; j_desc := j_desc s; j_sel := j_sel s; j_unsup := false |}
                    | None => Ok {| j_type := None; j_meta := j_meta s; j_spec := j_spec s; j_desc := j_desc s; j_sel := j_sel s; j_unsup := true |}
                    end
                | _ => Err EFormat
                end
            end
        | FMeta =>
            let! m := need (read_meta (snd e)) in
            Ok {| j_type := j_type s; j_meta := Some m; j_spec := j_spec s; j_desc := j_desc s; j_sel := j_sel s; j_unsup := false |}
        | FSpec =>
            match j_spec s, j_type s with
            | Some _, _ => Err EFormat
            | None, None => Err EFormat
            | None, Some ty =>
                let! x := need (read_spec ty (snd e)) in
                Ok {| j_type := j_type s; j_meta := j_meta s; j_spec := Some x; j_desc := j_desc s; j_sel := j_sel s; j_unsup := false |}
            end
        | FDesc =>
            match j_desc s, snd e with
            | None, YStr t => Ok {| j_type := j_type s; j_meta := j_meta s; j_spec := j_spec s; j_desc := Some t; j_sel := j_sel s; j_unsup := false |}
            | _, _ => Err EFormat
            end
        | FSel =>
            match j_sel s with
            | Some _ => Err EFormat
            | None =>
                let! l := need (read_selector (snd e)) in
                Ok {| j_type := j_type s; j_meta := j_meta s; j_spec := j_spec s; j_desc := j_desc s; j_sel := Some l; j_unsup := false |}
            end
        end
  end.
(** parse_blueprint_resource.rs 110-115 *)
Definition jstate0 : jstate := {| j_type := None; j_meta := None; j_spec := None; j_desc := None; j_sel := None; j_unsup := false |}.
(** parse_blueprint_resource.rs 106-200 *)
Definition json_resource (m : list (option text * yaml)) : outcome berr resource :=
  let! s := fold_outcome json_field jstate0 m in
  if j_unsup s then Err EUnsupported
  else match j_type s with
       | None => Err EFormat
       | Some ty => Ok {| r_type := ty; r_meta := j_meta s; r_spec := j_spec s; r_desc := j_desc s; r_sel := j_sel s |}
       end.
(** parse_helpers.rs 78-100 *)
Definition json_resources_step (rs : list (text * resource)) (e : option text * yaml) : outcome berr (list (text * resource)) :=
  match e with
  | (Some name, YMap m) =>
      match json_resource m with
      | Ok r => Ok (put name r rs)
      | Err EUnsupported => Ok rs
      | Err x => Err x
      | Panic => Panic
      end
  | (Some name, YNull) => Ok rs
  | _ => Err EFormat
  end.
(** parse_helpers.rs 63-104 *)
Definition json_resources (v : yaml) : outcome berr (list (text * resource)) :=
  match v with YMap m => fold_outcome json_resources_step [] m | _ => Err EFormat end.
(** parse_helpers.rs 29-58 *)
Fixpoint texts (l : list yaml) : option (list text) :=
  match l with
  | [] => Some []
  | YStr t :: l' => match texts l' with Some ts => Some (t :: ts) | None => None end
  | _ => None
  end.
(** parse_helpers.rs 29-61 *)
Definition json_transform (v : yaml) : outcome berr (list text) :=
  match v with YStr t => Ok [t] | YSeq l => need (texts l) | _ => Err EFormat end.
(** blueprint_with_subs.rs 12-26, the derived [Deserialize]: each field read at most once, keys of
    other names ignored *)
Record jtop := { t_version : option text; t_transform : option (list text); t_vars : option (option V);
                 t_res : option (list (text * resource)); t_meta : option (option B) }.
(** blueprint_with_subs.rs 12-26, as above *)
Definition jtop0 : jtop := {| t_version := None; t_transform := None; t_vars := None; t_res := None; t_meta := None |}.
(** serde's duplicate field error, for blueprint_with_subs.rs 12-26 and parse_blueprint_resource.rs 118-180 *)
Definition once {A X} (o : option A) (x : outcome berr X) : outcome berr X := match o with Some _ => Err EFormat | None => x end.
(** An [Option] field: null is [None]. (serde; blueprint_with_subs.rs 12-26.) *)
Definition optional {A} (read : yaml -> option A) (v : yaml) : outcome berr (option A) :=
  match v with YNull => Ok None | _ => omap Some (need (read v)) end.
(** blueprint_with_subs.rs 12-26, the derived Deserialize: one entry *)
Definition json_entry (s : jtop) (e : option text * yaml) : outcome berr jtop :=
  match fst e with
  | None => Err EFormat
  | Some key =>
      if text_eqb key (chars "version") then
        once (t_version s)
          match snd e with
          | YStr t => if text_eqb t version_text
                      then Ok {| t_version := Some t; t_transform := t_transform s; t_vars := t_vars s; t_res := t_res s; t_meta := t_meta s |}
                      else Err EFormat
          | _ => Err EFormat
          end
      else if text_eqb key (chars "transform") then
        once (t_transform s)
          (let! l := json_transform (snd e) in
           Ok {| t_version := t_version s; t_transform := Some l; t_vars := t_vars s; t_res := t_res s; t_meta := t_meta s |})
      else if text_eqb key (chars "variables") then
        once (t_vars s)
          (let! v := optional read_vars (snd e) in
           Ok {| t_version := t_version s; t_transform := t_transform s; t_vars := Some v; t_res := t_res s; t_meta := t_meta s |})
      else if text_eqb key (chars "resources") then
        once (t_res s)
          (let! rs := json_resources (snd e) in
           Ok {| t_version := t_version s; t_transform := t_transform s; t_vars := t_vars s; t_res := Some rs; t_meta := t_meta s |})
      else if text_eqb key (chars "metadata") then
        once (t_meta s)
          (let! x := optional read_bmeta (snd e) in
           Ok {| t_version := t_version s; t_transform := t_transform s; t_vars := t_vars s; t_res := t_res s; t_meta := Some x |})
      else Ok s
  end.
(** blueprint_with_subs.rs 12-26: a field that is absent is None *)
Definition flatten {A} (o : option (option A)) : option A := match o with Some x => x | None => None end.
(** The version, the transform (it has a [deserialize_with] and no default) and the resources are
    required. blueprint_with_subs.rs 12-26. *)
Definition json_blueprint (d : yaml) : outcome berr blueprint :=
  match d with
  | YMap m =>
      let! s := fold_outcome json_entry jtop0 m in
      match t_version s, t_transform s, t_res s with
      | Some v, Some t, Some rs =>
          Ok {| b_version := v; b_transform := Some t; b_vars := flatten (t_vars s); b_res := rs; b_meta := flatten (t_meta s) |}
      | _, _, _ => Err EFormat
      end
  | _ => Err EFormat
  end.
(** validate_parsed.rs 10-36; [vars_typed]: every variable has a type that is not empty *)
Definition validate_blueprint (b : rblueprint) : outcome berr rblueprint :=
  match rb_res b with
  | [] => Err EFormat
  | _ => match rb_vars b with
         | Some v => if vars_typed v then Ok b else Err EFormat
         | None => Ok b
         end
  end.
(** parse.rs 20-31, 37-49 after comments are stripped and the text is read *)
Definition from_json (d : yaml) : outcome berr rblueprint :=
  let! b := json_blueprint d in
  let! r := resolve_blueprint b in
  validate_blueprint r.
End Params.
