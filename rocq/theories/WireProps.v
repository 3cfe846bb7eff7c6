(** Theorems about the documents of the local runtime API and of the messages between nodes
    (C141-C144).  Model: WireModel.v.  Vocabulary: WireSpec.v. *)
From Verif Require Import Base Json LocalApiModel ClusterModel WireModel WireSpec WireProofs.
Open Scope string_scope.
Local Open Scope list_scope.

(** *** C141 *)

(** What a result is taken for, for every document: it has the shape of what it is taken for, and
    not one that is tried before. *)
Theorem C141_taken_for : forall d r, r_data d = Some r ->
  match r with
  | DHttp s h b => an_http_response d s h b
  | DWebSocket b e => an_outcome d b e /\ (forall s h t, ~ an_http_response d s h t)
  | DProcessing b fs => a_processing_result d b fs /\ (forall s h t, ~ an_http_response d s h t) /\ (forall b e, ~ an_outcome d b e)
  | DScheduled _ _ | DEvent _ _ => False
  end.
Proof. exact data_reads. Qed.

(** An HTTP response keeps its status, its headers and its body. *)
Theorem C141_http : forall d s h b, an_http_response d s h b ->
  exists h', r_data d = Some (DHttp s h' b) /\ forall k, lookup k h' = lookup k h.
Proof. exact reads_data_http. Qed.

(** An outcome keeps its success and its error. *)
Theorem C141_outcome : forall d b e, an_outcome d b e -> (forall s h t, ~ an_http_response d s h t) ->
  r_data d = Some (DWebSocket b e).
Proof. exact reads_data_outcome. Qed.

(** Other documents are refused. *)
Theorem C141_refused : forall d, r_data d = None <->
  (forall s h t, ~ an_http_response d s h t) /\ (forall b e, ~ an_outcome d b e) /\ (forall b fs, ~ a_processing_result d b fs).
Proof. exact data_refused. Qed.

(** Whatever else an object with an outcome has, the messages that failed among it, is lost ... *)
Theorem C141_failures_refuted : forall m b, once "success" (JBool b) m -> absent "errorMessage" m -> absent "status" m ->
  r_data (JObj m) = Some (DWebSocket b None).
Proof. exact object_outcome. Qed.
(** ... in particular the failures of every result of a consumer, as the runtime itself writes it, ... *)
Theorem C141_failures_written_refuted : forall b fs, r_data (w_data (DProcessing b fs)) = Some (DWebSocket b None).
Proof. exact failures_lost. Qed.
(** ... and a result is never taken for that of a schedule or of an event. *)
Theorem C141_kind_refuted : forall b e,
  r_data (w_data (DScheduled b e)) = Some (DWebSocket b e) /\ r_data (w_data (DEvent b e)) = Some (DWebSocket b e).
Proof. intros b e. split; apply kinds_lost. Qed.

(** Posting: the waiter of the event gets what the document says. *)
Theorem C141_delivered : forall (s : api_state event_body result) doc id d c st h b tx e,
  says ["eventId"; "data"; "context"] doc [Some (JStr id); Some d; c] -> an_http_response d st h b ->
  lookup id (processing s) = Some (tx, e) -> ~ In tx (gone s) ->
  exists s' h' c', post_document r_result s doc = (s', Answered ResultProcessed) /\
    delivered s' = delivered s ++ [(tx, (e, {| rs_data := DHttp st h' b; rs_context := c' |}))] /\
    (forall k, lookup k h' = lookup k h) /\ a_context c c'.
Proof.
  intros s doc id d c st h b tx e H Hh Hl Hg.
  destruct (reads_data_http _ _ _ _ Hh) as (h' & E & Hk).
  set (c' := match c with None | Some JNull => None | Some v => Some (value_of v) end).
  assert (R : r_result doc = Some (id, {| rs_data := DHttp st h' b; rs_context := c' |})).
  { apply result_reads. exists d, c. auto. }
  unfold post_document. rewrite R. unfold event_result. rewrite Hl.
  assert (G : existsb (Nat.eqb tx) (gone s) = false).
  { apply Bool.not_true_is_false. intros G. apply existsb_exists in G. destruct G as (x & Hx & G). apply Nat.eqb_eq in G. now subst x. }
  rewrite G. eexists _, h', c'. split; [reflexivity|]. split; [reflexivity|]. split; [exact Hk|]. apply context_kept.
Qed.
(** A document that names no event, or whose data have no shape of a result, changes nothing. *)
Theorem C141_not_delivered : forall (s : api_state event_body result) doc,
  (forall id d c, says ["eventId"; "data"; "context"] doc [Some (JStr id); Some d; c] -> r_data d = None) ->
  post_document r_result s doc = (s, Refused).
Proof.
  intros s doc H. unfold post_document. destruct (r_result doc) as [[id r]|] eqn:E; [|reflexivity].
  apply result_reads in E. destruct E as (d & c & S & D & _). rewrite (H _ _ _ S) in D. discriminate.
Qed.
(** A result written by the runtime's own types is read back, an HTTP response exactly
    (a context that is null as none). *)
Theorem C141_back : forall id s h b c, (0 <= s < 65536)%Z -> NoDup (map fst h) -> match c with Some v => plain v /\ v <> JNull | None => True end ->
  r_result (w_result id {| rs_data := DHttp s h b; rs_context := c |}) = Some (id, {| rs_data := DHttp s h b; rs_context := c |}).
Proof.
  intros id s h b c Hs Hh Hc. rewrite result_back by (try assumption; destruct c; tauto).
  destruct c as [[]|]; try reflexivity. destruct Hc. congruence.
Qed.
(** In a workflow the data are any document, and are kept. *)
Theorem C141_workflow : forall doc id d c, says ["eventId"; "data"; "context"] doc [Some (JStr id); Some d; c] -> plain d ->
  exists c', r_wf_result doc = Some (id, {| wr_data := d; wr_context := c' |}) /\ a_context c c'.
Proof.
  intros doc id d c H P. apply fields_says in H. unfold r_wf_result. rewrite H. cbn -[opt r_value]. unfold r_value at 1. cbn -[opt r_value].
  rewrite plain_value by exact P. eexists. split; [|apply context_kept]. destruct c as [[]|]; reflexivity.
Qed.

Definition posted : json :=
  JObj [("context", JNull); ("eventId", JStr "e1");
        ("data", JObj [("success", JBool true); ("body", JStr "hi"); ("headers", JObj [("a", JStr "1"); ("a", JStr "2")]); ("status", JNum (NInt 201))])].
Definition waiting : api_state event_body result :=
  fst (next_event (enqueue api_init {| ev_id := "e1"; ev_body := {| eb_type := TWsMessage; eb_tag := "t"; eb_time := 7;
    eb_data := PWs {| we_route := "r"; we_connection := "c"; we_source_ip := "ip"; we_request_id := None; we_message := "m" |} |} |})).
Example C141_nonvacuous :
  map snd (map snd (delivered (fst (post_document r_result waiting posted)))) = [{| rs_data := DHttp 201 [("a", "2")] "hi"; rs_context := None |}]
  /\ an_http_response (JObj [("success", JBool true); ("body", JStr "hi"); ("headers", JObj [("a", JStr "1"); ("a", JStr "2")]); ("status", JNum (NInt 201))]) 201 [("a", "2")] "hi"
  /\ r_data (JObj [("success", JBool false); ("failues", JArr [JObj [("messageId", JStr "m1")]])]) = Some (DWebSocket false None)
  /\ r_data (JArr [JBool false; JArr [JObj [("messageId", JStr "m1")]]]) = Some (DProcessing false (Some [("m1", None)]))
  /\ r_data (JObj [("status", JNum (NInt 70000)); ("headers", JObj []); ("body", JStr "")]) = None
  /\ post_document r_result waiting (JObj [("eventId", JStr "e1")]) = (waiting, Refused).
Proof.
  split; [reflexivity|]. split.
  { pose proof (data_reads (JObj [("success", JBool true); ("body", JStr "hi"); ("headers", JObj [("a", JStr "1"); ("a", JStr "2")]); ("status", JNum (NInt 201))]) _ eq_refl) as H. exact H. }
  repeat split.
Qed.

(** *** C142 *)

(** Every event the runtime can hold reads back as itself from the document a poller gets. *)
Theorem C142_back : forall e, held_event e -> ~ null_attributes e -> r_event (w_event e) = Some e.
Proof. intros e H N. rewrite event_back by exact H. now rewrite read_back_same. Qed.
(** The document has these members, its data one, named after the kind of event. *)
Theorem C142_members : forall e, exists d n p,
  says ["id"; "eventType"; "handlerTag"; "timestamp"; "data"] (w_event e)
       [Some (JStr (ev_id e));
        Some (JStr (match eb_type (ev_body e) with THttpRequest => "httpRequest" | TWsMessage => "wsMessage" | TConsumerMessage => "consumerMessage"
                    | TScheduleMessage => "scheduleMessage" | TEventMessage => "eventMessage" end));
        Some (JStr (eb_tag (ev_body e))); Some (JNum (NInt (eb_time (ev_body e)))); Some d]
  /\ d = JObj [(n, p)]
  /\ match eb_data (ev_body e) with
     | PHttp x => n = "HttpRequestEventData" /\ exists a b c f g,
         says ["method"; "path"; "route"; "pathParams"; "queryParams"; "multiQueryParams"; "headers"; "multiHeaders"; "body"; "sourceIp"; "requestId"] p
           [Some (JStr (he_method x)); Some (JStr (he_path x)); Some (JStr (he_route x)); Some a; Some b; Some c; Some f; Some g;
            option_map JStr (he_body x); Some (JStr (he_source_ip x)); Some (JStr (he_request_id x))]
     | PWs x => n = "WsMessageEventData" /\
         says ["route"; "connectionId"; "sourceIp"; "requestId"; "message"] p
           [Some (JStr (we_route x)); Some (JStr (we_connection x)); Some (JStr (we_source_ip x)); option_map JStr (we_request_id x); Some (JStr (we_message x))]
     | PConsumer x => n = "ConsumerMessageEventData" /\ exists l,
         says ["messages"; "vendor"] p [Some (JArr l); Some (ce_vendor x)] /\
         Forall2 (fun j m => says ["messageId"; "body"; "source"; "messageAttributes"; "vendor"] j
           [Some (JStr (cm_id m)); Some (JStr (cm_body m)); Some (JStr (cm_source m)); Some (cm_attributes m); Some (cm_vendor m)]) l (ce_messages x)
     | PSchedule x => n = "ScheduleMessageEventData" /\
         says ["scheduleId"; "messageId"; "schedule"; "vendor"] p
           [Some (JStr (se_schedule_id x)); Some (JStr (se_message_id x)); Some (JStr (se_schedule x)); Some (se_vendor x)]
     | PEvent x => n = "EventMessageEventData" /\
         says ["body"; "source"; "messageId"; "messageAttributes"; "vendor"] p
           [Some (JStr (me_body x)); Some (JStr (me_source x)); option_map JStr (me_id x); me_attributes x; Some (me_vendor x)]
     end.
Proof.
  intros [i [t g m d]]. cbn.
  destruct d as [x|x|x|x|x].
  all: eexists _, _, _; split; [apply fields_says; destruct t; reflexivity|].
  all: split; [reflexivity|]; split; [reflexivity|].
  - eexists _, _, _, _, _. apply fields_says. destruct x as [a b c d e f h j [k|] l n]; reflexivity.
  - apply fields_says. destruct x as [a b c [d|] e]; reflexivity.
  - eexists. split; [apply fields_says; reflexivity|].
    induction (ce_messages x) as [|y l IH]; constructor; [now apply fields_says|exact IH].
  - apply fields_says. reflexivity.
  - apply fields_says. destruct x as [a b [c|] [d|] e]; reflexivity.
Qed.
(** A type of event is read from its name, or from an object that has nothing but null under the name;
    no two types share a name, and there are no others. *)
Theorem C142_type : forall v t, r_type v = Some t <->
  exists n, (v = JStr n \/ v = JObj [(n, JNull)]) /\
    In (n, t) [("httpRequest", THttpRequest); ("wsMessage", TWsMessage); ("consumerMessage", TConsumerMessage); ("scheduleMessage", TScheduleMessage); ("eventMessage", TEventMessage)].
Proof.
  intros v t. split.
  - unfold r_type. intros H.
    assert (X : exists n, (v = JStr n \/ v = JObj [(n, JNull)]) /\ r_type (JStr n) = Some t).
    { destruct v as [| | |n| |[|[n []] []]]; try discriminate; exists n; split; auto. }
    destruct X as (n & V & R). exists n. split; [exact V|]. unfold r_type in R. cbn -[String.eqb] in R.
    repeat (match type of R with context [String.eqb ?a ?b] => destruct (String.eqb_spec a b) as [->|] end); try discriminate; injection R as <-; cbn; auto 10.
  - intros (n & [->| ->] & I); cbn in I; repeat destruct I as [[= <- <-]|I]; try contradiction; reflexivity.
Qed.
(** Attributes that are null are told apart from none by the document only. *)
Theorem C142_null_attributes_refuted : forall e, held_event e -> null_attributes e ->
  exists e', r_event (w_event e) = Some e' /\ e' <> e /\ w_event e' <> w_event e.
Proof.
  intros e H N. exists (read_back e). split; [now apply event_back|].
  destruct e as [i [t g m d]]. unfold null_attributes in N. cbn in N. destruct d as [x|x|x|x|[a b c o f]]; try contradiction.
  cbn in N. subst o. unfold read_back. cbn. split; [|destruct c]; discriminate.
Qed.
(** Polling: null exactly when no event waits, else the document of the oldest one. *)
Theorem C142_poll : forall (s : api_state event_body result),
  match queue s with
  | [] => poll_document w_event s = (s, JNull)
  | (tx, e) :: _ => exists s' doc, poll_document w_event s = (s', doc) /\ doc <> JNull /\
      lookup (ev_id e) (processing s') = Some (tx, e) /\
      (held_event e -> ~ null_attributes e -> r_event doc = Some e)
  end.
Proof.
  intros s. unfold poll_document, next_event. destruct (queue s) as [|[tx e] q]; [reflexivity|].
  eexists _, _. split; [reflexivity|]. split; [discriminate|]. split; [apply lookup_insert_eq|]. apply C142_back.
Qed.
(** The events of a workflow read back as well. *)
Theorem C142_workflow : forall e, (0 <= wb_time (ev_body e) < 2 ^ 64)%Z -> plain (wb_data (ev_body e)) -> r_wf_event (w_wf_event e) = Some e.
Proof. exact wf_event_back. Qed.

Definition an_event (a : option json) : event event_body :=
  {| ev_id := "e1"; ev_body := {| eb_type := TEventMessage; eb_tag := "source::q::h"; eb_time := 1700000000;
     eb_data := PEvent {| me_body := "b"; me_source := "q"; me_id := Some "m"; me_attributes := a; me_vendor := JObj [("k", JArr [JNull])] |} |} |}.
Definition a_request : event event_body :=
  {| ev_id := "e2"; ev_body := {| eb_type := THttpRequest; eb_tag := "get::/a"; eb_time := 5;
     eb_data := PHttp {| he_method := "GET"; he_path := "/a"; he_route := "/a"; he_path_params := []; he_query := [("q", "1")];
       he_multi_query := [("q", ["1"; "2"])]; he_headers := [("h", "x"); ("i", "y")]; he_multi_headers := []; he_body := None;
       he_source_ip := "ip"; he_request_id := "r" |} |} |}.
Example C142_nonvacuous :
  held_event (an_event (Some (JStr "x"))) /\ ~ null_attributes (an_event (Some (JStr "x"))) /\
  held_event (an_event (Some JNull)) /\ null_attributes (an_event (Some JNull)) /\
  held_event a_request /\ ~ null_attributes a_request /\ r_event (w_event a_request) = Some a_request.
Proof.
  assert (V : plain (JObj [("k", JArr [JNull])])).
  { constructor; [repeat constructor; simpl; tauto|]. constructor; [|constructor]. constructor. constructor; [constructor|constructor]. }
  split; [split; [cbn; lia|split; [exact V|constructor]]|]. split; [discriminate|].
  split; [split; [cbn; lia|split; [exact V|constructor]]|]. split; [reflexivity|].
  split. { split; [cbn; lia|]. cbn. repeat split; repeat constructor; simpl; intuition discriminate. }
  split; [exact (fun H => H)|reflexivity].
Qed.

(** *** C143 *)

(** What a node publishes is what the others read, and with it the node it came from. *)
Theorem C143_back : forall w, r_wrapped (w_wrapped w) = Some w.
Proof. exact wrapped_back. Qed.
(** So two messages never have the same document. *)
Theorem C143_distinct : forall w w', w_wrapped w = w_wrapped w' -> w = w'.
Proof. intros w w' H. pose proof (wrapped_back w) as A. rewrite H, wrapped_back in A. now injection A. Qed.
(** An object is taken for an acknowledgement exactly when it says it is one. *)
Theorem C143_acknowledgement : forall m n i, r_bus (JObj m) = Some (MsgAck n i) <->
  once "type" (JStr "Ack") m /\ once "message_node" (JStr n) m /\ once "message_id" (JStr i) m.
Proof. exact ack_reads. Qed.
Example C143_nonvacuous :
  w_wrapped {| wr_source := "n1"; wr_message := MsgAck "n0" "m" |} =
    JObj [("source_node", JStr "n1"); ("message", JObj [("type", JStr "Ack"); ("message_node", JStr "n0"); ("message_id", JStr "m")])]
  /\ r_bus (JObj [("message_id", JStr "m"); ("extra", JNull); ("type", JStr "Ack"); ("message_node", JStr "n0")]) = Some (MsgAck "n0" "m")
  /\ r_bus (JObj [("type", JStr "Ack"); ("type", JStr "Ack"); ("message_node", JStr "n0"); ("message_id", JStr "m")]) = None
  /\ r_bus (JObj [("message_node", JStr "n0"); ("message_id", JStr "m")]) = None.
Proof. repeat split. Qed.

(** *** C144 *)

(** The batches that are read, and what each message is read as *)
Theorem C144_exact : forall doc ms, r_ws_messages doc = Some ms <->
  exists l, says ["messages"] doc [Some (JArr l)] /\
    Forall2 (fun j (x : string * LocalApiModel.ws_message) => exists o,
      a_message j (wm_connection_id (snd x)) (wm_message_id (snd x)) (wm_message (snd x)) (Some (JStr (fst x))) o
      /\ optional_texts o (wm_inform_clients_on_loss (snd x))) l ms.
Proof. exact batch_reads. Qed.
(** A batch that is read is sent message by message, as C09 says; one that is not sends nothing. *)
Theorem C144_sent : forall W (send : option (sender W)) w doc,
  match r_ws_messages doc with
  | Some ms => post_messages send w doc =
      (fst (ws_messages send w (map snd ms)), match snd (ws_messages send w (map snd ms)) with None => BatchSent | Some e => BatchError e end)
  | None => post_messages send w doc = (w, BatchRefused)
  end.
Proof.
  intros W send w doc. unfold post_messages. destruct (r_ws_messages doc) as [ms|]; [|reflexivity].
  now destruct (ws_messages send w (map snd ms)).
Qed.
(** The node a message says it comes from is not used ... *)
Theorem C144_source_node_unused : forall W (send : option (sender W)) w doc doc' l l',
  says ["messages"] doc [Some (JArr l)] -> says ["messages"] doc' [Some (JArr l')] ->
  Forall2 (fun j j' => exists c i t o x src src', optional_texts o x /\
    a_message j c i t (Some (JStr src)) o /\ a_message j' c i t (Some (JStr src')) o) l l' ->
  post_messages send w doc = post_messages send w doc' /\ snd (post_messages send w doc) <> BatchRefused.
Proof.
  intros W send w doc doc' l l' H H' F.
  assert (Q : exists ms ms', r_ws_messages doc = Some ms /\ r_ws_messages doc' = Some ms' /\ map snd ms = map snd ms').
  { assert (Q : exists ms ms', all r_ws_message l = Some ms /\ all r_ws_message l' = Some ms' /\ map snd ms = map snd ms').
    { clear H H'. induction F as [|j j' l l' (c & i & t & o & x & src & src' & Ho & A & B) F IH]; [now exists [], []|].
      destruct IH as (ms & ms' & E & E' & Es).
      set (m := {| wm_connection_id := c; wm_inform_clients_on_loss := x; wm_message_id := i; wm_message := t |}).
      assert (Ra : r_ws_message j = Some (src, m)) by (apply ws_message_reads; now exists o).
      assert (Rb : r_ws_message j' = Some (src', m)) by (apply ws_message_reads; now exists o).
      exists ((src, m) :: ms), ((src', m) :: ms'). simpl. rewrite Ra, Rb. cbn [obnd]. rewrite E, E'. cbn. rewrite Es. auto. }
    destruct Q as (ms & ms' & E & E' & Es). apply fields_says in H. apply fields_says in H'.
    exists ms, ms'. unfold r_ws_messages. rewrite H, H'. auto. }
  destruct Q as (ms & ms' & E & E' & Es). unfold post_messages. rewrite E, E', Es. split; [reflexivity|].
  destruct (ws_messages send w (map snd ms')) as [w' [e|]]; discriminate.
Qed.
(** ... and yet a batch with a message that does not name one is refused as a whole. *)
Theorem C144_source_node_refuted : forall W (send : option (sender W)) w doc l m,
  says ["messages"] doc [Some (JArr l)] -> In (JObj m) l -> absent "sourceNode" m ->
  post_messages send w doc = (w, BatchRefused).
Proof. intros W send w doc l m H Hin Ha. exact (batch_refused send w doc l (JObj m) m H Hin eq_refl Ha). Qed.

Definition record_send : sender (list string) := fun w c i t x => (w ++ [c; i; t], true).
Definition batch (extra : list (string * json)) : json :=
  JObj [("messages", JArr [JObj (extra ++ [("connectionId", JStr "c"); ("messageId", JStr "m"); ("message", JStr "hi")])])].
Example C144_nonvacuous :
  post_messages (Some record_send) [] (batch [("sourceNode", JStr "anything")]) = (["c"; "m"; "hi"], BatchSent)
  /\ post_messages (Some record_send) [] (batch []) = ([], BatchRefused)
  /\ says ["messages"] (batch []) [Some (JArr [JObj [("connectionId", JStr "c"); ("messageId", JStr "m"); ("message", JStr "hi")]])].
Proof. split; [reflexivity|]. split; [reflexivity|]. now apply fields_says. Qed.

Print Assumptions C141_taken_for.
Print Assumptions C141_http.
Print Assumptions C141_outcome.
Print Assumptions C141_refused.
Print Assumptions C141_failures_refuted.
Print Assumptions C141_failures_written_refuted.
Print Assumptions C141_kind_refuted.
Print Assumptions C141_delivered.
Print Assumptions C141_not_delivered.
Print Assumptions C141_back.
Print Assumptions C141_workflow.
Print Assumptions C142_type.
Print Assumptions C142_back.
Print Assumptions C142_members.
Print Assumptions C142_null_attributes_refuted.
Print Assumptions C142_poll.
Print Assumptions C142_workflow.
Print Assumptions C143_back.
Print Assumptions C143_distinct.
Print Assumptions C143_acknowledgement.
Print Assumptions C144_exact.
Print Assumptions C144_sent.
Print Assumptions C144_source_node_unused.
Print Assumptions C144_source_node_refuted.
