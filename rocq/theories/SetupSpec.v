(** Vocabulary for C135: what a YAML blueprint says about an API and its handlers, read off the
    document itself. *)
From Verif Require Import Base Chars SubstModel ResolveModel ResolveSpec BlueprintModel WfYamlModel WfYamlSpec SpecYamlModel WfResolveSpec.
From Verif Require Import ApiSpec.
Local Open Scope list_scope.

Section Params.
Variable F : Type.
Variable parse_f64 : text -> option F.
Variable k : classes.
Variable env : text -> option text.
Variable show_i : Z -> text.
Variable show_f : F -> text.
Notation mapping := (list (option text * yaml)).

(** The document declares the resource [d] of type [ty] under a name. *)
Definition declares (m : mapping) (ty name : text) (d : mapping) : Prop :=
  exists rs, In (Some (chars "resources"), YMap rs) m /\ In (Some name, YMap d) rs /\ In (Some (chars "type"), YStr ty) d.
(** The API that is asked for by name, or any *)
Definition declares_api (m : mapping) (asked : option text) (api : mapping) : Prop :=
  exists name, declares m (chars "celerity/api") name api /\ forall n, asked = Some n -> n = name.
(** An entry of a part of the metadata of a resource *)
Definition metadata_entry (d : mapping) (part key : text) (v : yaml) : Prop :=
  exists mm pm, In (Some (chars "metadata"), YMap mm) d /\ In (Some part, YMap pm) mm /\ In (Some key, v) pm.

(** What a value in YAML stands for *)
Definition text_of (v : yaml) (t : text) : Prop := exists ps, is_text k v ps /\ parts_text env ps t.
Definition int_of (v : yaml) (z : Z) : Prop := exists n, is_int F k v n /\ int_is F parse_f64 env n z.
Definition bool_of (v : yaml) (b : bool) : Prop := exists n, is_bool F k v n /\ bool_is F parse_f64 env n b.
Definition scalar_of (v : yaml) (s : scalar F) : Prop := exists n, is_node F parse_f64 k v n /\ scalar_is F parse_f64 env n s.
(** How it is written out *)
Definition written (s : scalar F) : text :=
  match s with SStr _ t => t | SInt _ z => show_i z | SFloat _ f => show_f f | SBool _ true => chars "true" | SBool _ false => chars "false" end.

(** An annotation of a resource; its text, or a default *)
Definition annotated (d : mapping) (key : text) (s : scalar F) : Prop := exists v, metadata_entry d (chars "annotations") key v /\ scalar_of v s.
Definition annotation_text (d : mapping) (key default t : text) : Prop :=
  (exists s, annotated d key s /\ t = written s) \/ ((forall v, ~ metadata_entry d (chars "annotations") key v) /\ t = default).
(** The link selector of [d] and the labels of [e] share a key. *)
Definition linked_by (d e : mapping) (key : text) : Prop :=
  (exists lm bm t, In (Some (chars "linkSelector"), YMap lm) d /\ In (Some (chars "byLabel"), YMap bm) lm /\ In (Some key, YStr t) bm) /\
  exists v, metadata_entry e (chars "labels") key v.
Definition linked_to (d e : mapping) : Prop := exists key, linked_by d e key.
(** A handler linked to an API and marked for it *)
Definition handler_of (m api : mapping) (mark name : text) (d : mapping) : Prop :=
  declares m (chars "celerity/handler") name d /\ linked_to api d /\ annotated d mark (SBool F true).
(** The one handler config linked to a handler, if any *)
Definition config_of (m d : mapping) (o : option mapping) : Prop :=
  match o with
  | Some c => exists name, declares m (chars "celerity/handlerConfig") name c /\ linked_to d c /\
                forall name' c', declares m (chars "celerity/handlerConfig") name' c' -> linked_to d c' -> name' = name
  | None => forall name c, declares m (chars "celerity/handlerConfig") name c -> ~ linked_to d c
  end.
(** A field of the spec of a resource, of that of the handler config, and of the shared handler
    config of the blueprint *)
Definition spec_field {A} (d : mapping) (key : text) (R : yaml -> A -> Prop) (o : option A) : Prop :=
  exists sm, In (Some (chars "spec"), YMap sm) d /\ optional sm key R o.
Definition config_field {A} (c : option mapping) (key : text) (R : yaml -> A -> Prop) (o : option A) : Prop :=
  match c with Some d => spec_field d key R o | None => o = None end.
Definition shared_field {A} (m : mapping) (key : text) (R : yaml -> A -> Prop) (o : option A) : Prop :=
  (exists mm w, In (Some (chars "metadata"), YMap mm) m /\ In (Some (chars "sharedHandlerConfig"), YMap w) mm /\ optional w key R o) \/
  ((forall mm w, In (Some (chars "metadata"), YMap mm) m -> ~ In (Some (chars "sharedHandlerConfig"), YMap w) mm) /\ o = None).
(** The three places a setting of the handler [d] may be given in, [c] being its handler config *)
Definition places {A} (m d : mapping) (c : option mapping) (key : text) (R : yaml -> A -> Prop) (own config shared : option A) : Prop :=
  spec_field d key R own /\ config_field c key R config /\ shared_field m key R shared.
(** The path of a route for the server: segment by segment *)
Definition converted (path route : text) : Prop :=
  exists ps qs, path_of ps path /\ Forall segment ps /\ Forall2 converts ps qs /\ path_of qs route.
(** The key of the messages of a WebSocket API: that of its first WebSocket configuration *)
Definition message_key (api : mapping) (key : text) : Prop :=
  exists sm l, In (Some (chars "spec"), YMap sm) api /\ In (Some (chars "protocols"), YSeq l) sm /\
  match maps_of l with
  | [] => key = chars "event"
  | p :: _ => exists w o, In (Some (chars "websocketConfig"), YMap w) p /\
                optional w (chars "routeKey") (fun v t => exists ps, is_text k v ps /\ parts_scalar F parse_f64 env ps (SStr F t)) o /\
                first_given [o; Some (chars "event")] (Some key)
  end.
End Params.
