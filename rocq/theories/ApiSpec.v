(** Vocabulary for the properties of application setup *)
From Verif Require Import Base Chars ApiModel.
From Coq Require Import Permutation.
Local Open Scope list_scope.

(** Labels and annotations *)
Definition has_label (r : resource) (k v : text) : Prop := exists ls, r_labels r = Some ls /\ In (k, v) ls.
Definition has_annotation (r : resource) (a : text) (v : scalar) : Prop := exists m, r_annotations r = Some m /\ In (a, v) m.
Definition selector (r : resource) : list (text * text) := match r_selector r with Some l => l | None => [] end.
(** The type and every label of the selector *)
Definition linked (sel : list (text * text)) (t : rtype) (r : resource) : Prop :=
  r_type r = t /\ forall k v, In (k, v) sel -> has_label r k v.
(** The type and a label with a key of the selector *)
Definition touched_by (k : text) (sel : list (text * text)) (t : rtype) (r : resource) : Prop :=
  r_type r = t /\ (exists v, In (k, v) sel) /\ exists v, has_label r k v.
Definition touched (sel : list (text * text)) (t : rtype) (r : resource) : Prop := exists k, touched_by k sel t r.
(** No key twice in any of the maps *)
Definition map_ok {A} (m : list (text * A)) : Prop := NoDup (map fst m).
Definition resource_ok (r : resource) : Prop :=
  (forall m, r_labels r = Some m -> map_ok m) /\ (forall m, r_annotations r = Some m -> map_ok m) /\ map_ok (selector r).
Definition blueprint_ok (b : blueprint) : Prop := map_ok (b_resources b) /\ forall n r, In (n, r) (b_resources b) -> resource_ok r.
(** The first of several values that is given *)
Inductive first_given {A} : list (option A) -> option A -> Prop :=
| first_here a os : first_given (Some a :: os) (Some a)
| first_later os o : first_given os o -> first_given (None :: os) o
| first_none : first_given [] None.
(** The one handler config linked to a handler, if any *)
Definition configured (b : blueprint) (r : resource) (o : option source) : Prop :=
  match o with
  | Some s => exists n c, In (n, c) (b_resources b) /\ touched (selector r) THandlerConfig c /\ r_spec c = SpHandlerConfig s /\
                (forall n' c', In (n', c') (b_resources b) -> touched (selector r) THandlerConfig c' -> n' = n)
  | None => forall n c, In (n, c) (b_resources b) -> ~ touched (selector r) THandlerConfig c
  end.
(** The API of an application: the one with this name, or any *)
Definition is_api (b : blueprint) (name : option text) (r : resource) : Prop :=
  exists n, In (n, r) (b_resources b) /\ r_type r = TApi /\ forall m, name = Some m -> m = n.
(** Route conversion of a segment *)
Inductive converts : text -> text -> Prop :=
| conv_wild n : converts (chars "{" ++ n ++ chars "+}") (chars "*" ++ n)
| conv_param n : (forall u, n <> u ++ chars "+") -> converts (chars "{" ++ n ++ chars "}") (chars ":" ++ n)
| conv_other p : (forall n, p <> chars "{" ++ n ++ chars "}") -> converts p p.
(** Parts with slashes between them *)
Inductive path_of : list text -> text -> Prop :=
| path_one p : path_of [p] p
| path_more p ps t : path_of ps t -> path_of (p :: ps) (p ++ chars "/" ++ t).
Definition segment (p : text) : Prop := ~ In 47%N p.

Definition http_handlers (c : api_config) : list handler := match ac_http c with Some (hs, _) => hs | None => [] end.
Definition ws_handlers (c : api_config) : list handler := match ac_ws c with Some (hs, _, _) => hs | None => [] end.
(** A scalar written as text *)
Inductive shown : scalar -> text -> Prop :=
| shown_text t : shown (SStr t) t
| shown_number t : shown (SNum t) t
| shown_true : shown (SBool true) (chars "true")
| shown_false : shown (SBool false) (chars "false").
(** The value of an annotation, or a default *)
Definition annotation_or (r : resource) (a d t : text) : Prop :=
  (exists v, has_annotation r a v /\ shown v t) \/ ((forall v, ~ has_annotation r a v) /\ t = d).
(** What is to be known of a handler of the blueprint *)
Definition defined (b : blueprint) (n : text) (r : resource) (h : handler) : Prop :=
  h_handler h = n /\ exists s, r_spec r = SpHandler s /\
  forall o, configured b r o ->
    first_given [so_location s; bind_opt o so_location; bind_opt (b_shared b) so_location] (Some (h_location h)) /\
    (h_tracing h = true <-> first_given [so_tracing s; bind_opt o so_tracing; bind_opt (b_shared b) so_tracing] (Some true)).
(** The same blueprint, with its maps iterated in another order *)
Definition same_map {A} (o o' : option (list (text * A))) : Prop :=
  match o, o' with Some m, Some m' => Permutation m m' | None, None => True | _, _ => False end.
Definition same_resource (r r' : resource) : Prop :=
  r_type r = r_type r' /\ r_spec r = r_spec r' /\ same_map (r_labels r) (r_labels r') /\ same_map (r_annotations r) (r_annotations r') /\ same_map (r_selector r) (r_selector r').
Definition same_blueprint (b b' : blueprint) : Prop :=
  b_shared b = b_shared b' /\ exists l, Permutation (b_resources b) l /\ Forall2 (fun x y => fst x = fst y /\ same_resource (snd x) (snd y)) l (b_resources b').
(** A handler linked to an API and marked for HTTP or for WebSocket *)
Definition marked (b : blueprint) (api : resource) (a n : text) (r : resource) : Prop :=
  In (n, r) (b_resources b) /\ touched (selector api) THandler r /\ has_annotation r a (SBool true).
(** Each handler has at most one handler config. *)
Definition one_config (b : blueprint) : Prop := forall n r, In (n, r) (b_resources b) -> r_type r = THandler -> exists o, configured b r o.
(** A location for the code of a handler can be found. *)
Definition located (b : blueprint) (r : resource) : Prop :=
  exists s o l, r_spec r = SpHandler s /\ configured b r o /\ first_given [so_location s; bind_opt o so_location; bind_opt (b_shared b) so_location] (Some l).
