(** What a JSON document says, without reference to how it is read.  From the model only the types
    of events are used. *)
From Verif Require Import Base Json LocalApiModel WireModel.
Open Scope string_scope.
Local Open Scope list_scope.

(** The member [k] occurs once, with the value [v]. *)
Definition once (k : string) (v : json) (m : list (string * json)) : Prop :=
  exists a b, m = a ++ (k, v) :: b /\ ~ In k (map fst a) /\ ~ In k (map fst b).
Definition absent (k : string) (m : list (string * json)) : Prop := ~ In k (map fst m).
(** [v] is the value of the last member [k]. *)
Definition last_member (k : string) (v : json) (m : list (string * json)) : Prop :=
  exists a b, m = a ++ (k, v) :: b /\ ~ In k (map fst b).

(** The fields [names] of a document have these values ([None]: the field is left out): an object
    with each of them at most once, and anything else besides, or an array with exactly these
    elements. *)
Inductive says (names : list string) : json -> list (option json) -> Prop :=
| SaysObject m vs :
    Forall2 (fun k o => match o with Some v => once k v m | None => absent k m end) names vs ->
    says names (JObj m) vs
| SaysArray l : length l = length names -> says names (JArr l) (map Some l).

(** An optional text: left out, null, or a string *)
Inductive optional_text : option json -> option string -> Prop :=
| TextLeftOut : optional_text None None
| TextNull : optional_text (Some JNull) None
| TextGiven s : optional_text (Some (JStr s)) (Some s).

(** An object whose members are all strings; of members with the same key the last counts. *)
Definition texts (m : list (string * json)) (h : smap string) : Prop :=
  (forall k v, In (k, v) m -> exists s, v = JStr s) /\
  (forall k s, lookup k h = Some s <-> last_member k (JStr s) m).

(** The shapes a result can have *)
Definition an_http_response (d : json) (status : Z) (headers : smap string) (body : string) : Prop :=
  exists m, says ["status"; "headers"; "body"] d [Some (JNum (NInt status)); Some (JObj m); Some (JStr body)]
    /\ (0 <= status < 65536)%Z /\ texts m headers.
Definition an_outcome (d : json) (success : bool) (error : option string) : Prop :=
  exists o, says ["success"; "errorMessage"] d [Some (JBool success); o] /\ optional_text o error.
(** A message that could not be processed, with the error *)
Definition a_failed_message (d : json) (id : string) (error : option string) : Prop :=
  exists o, says ["messageId"; "errorMessage"] d [Some (JStr id); o] /\ optional_text o error.

(** The result of a consumer, with the messages that failed (the field is spelt so) *)
Definition a_processing_result (d : json) (success : bool) (failures : option (list (string * option string))) : Prop :=
  exists o, says ["success"; "failues"] d [Some (JBool success); o] /\
    match failures with
    | None => o = None \/ o = Some JNull
    | Some fs => exists l, o = Some (JArr l) /\ Forall2 (fun j f => a_failed_message j (fst f) (snd f)) l fs
    end.

(** A value as the runtime holds it: no object has two members with the same key. *)
Inductive plain : json -> Prop :=
| PlainNull : plain JNull
| PlainBool b : plain (JBool b)
| PlainNum n : plain (JNum n)
| PlainStr s : plain (JStr s)
| PlainArr l : Forall plain l -> plain (JArr l)
| PlainObj m : NoDup (map fst m) -> Forall (fun e => plain (snd e)) m -> plain (JObj m).

(** The context of a result: left out, null, or kept *)
Definition a_context (o kept : option json) : Prop :=
  match o with None | Some JNull => kept = None | Some v => plain v -> kept = Some v end.

(** A message of a batch, as far as sending it is concerned *)
Definition a_message (d : json) (connection id text : string) (source_node inform : option json) : Prop :=
  says ["connectionId"; "sourceNode"; "informClientsOnLoss"; "messageId"; "message"] d
       [Some (JStr connection); source_node; inform; Some (JStr id); Some (JStr text)].
(** The clients to tell of a loss: left out, null, or a list of strings *)
Inductive optional_texts : option json -> option (list string) -> Prop :=
| TextsLeftOut : optional_texts None None
| TextsNull : optional_texts (Some JNull) None
| TextsGiven l : optional_texts (Some (JArr (map JStr l))) (Some l).

(** An event as the runtime can hold it: a hash map has a key once, a time is an unsigned 64-bit
    number, and the free-form parts are plain. *)
Definition held_payload (p : payload) : Prop :=
  match p with
  | PHttp e => NoDup (map fst (he_path_params e)) /\ NoDup (map fst (he_query e)) /\ NoDup (map fst (he_multi_query e))
               /\ NoDup (map fst (he_headers e)) /\ NoDup (map fst (he_multi_headers e))
  | PWs _ => True
  | PConsumer e => plain (ce_vendor e) /\ Forall (fun m => plain (cm_attributes m) /\ plain (cm_vendor m)) (ce_messages e)
  | PSchedule e => plain (se_vendor e)
  | PEvent e => plain (me_vendor e) /\ match me_attributes e with Some v => plain v | None => True end
  end.
Definition held_event (e : event event_body) : Prop :=
  (0 <= eb_time (ev_body e) < 2 ^ 64)%Z /\ held_payload (eb_data (ev_body e)).
(** The attributes of the message are there, and null. *)
Definition null_attributes (e : event event_body) : Prop :=
  match eb_data (ev_body e) with PEvent m => me_attributes m = Some JNull | _ => False end.
