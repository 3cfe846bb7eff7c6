(** Theorems about the local runtime API (C07-C09, C57).
    Model: LocalApiModel.v.  Vocabulary: LocalApiSpec.v. *)
From Verif Require Import Base LocalApiModel LocalApiSpec LocalApiProofs.
Open Scope string_scope.
Open Scope list_scope.

(** *** C07: every history, from the empty API *)

(** The events handed out are the first ones enqueued, in order, each once. *)
Theorem C07_first_in_first_out : forall B R os (s : api_state B R) h,
  api_run api_init os = (s, h) ->
  handed_out h = firstn (length (handed_out h)) (numbered 0 (enqueued h)).
Proof. intros B R. exact fifo. Qed.

Theorem C07_at_most_one_poller : forall B R os (s : api_state B R) h,
  api_run api_init os = (s, h) -> NoDup (map fst (handed_out h)).
Proof. intros B R. exact handed_once. Qed.

(** A poll answers the oldest event not yet handed out ... *)
Theorem C07_poll_answer : forall B R os (s : api_state B R) h,
  api_run api_init os = (s, h) ->
  snd (api_step s Poll) = APoll (nth_error (numbered 0 (enqueued h)) (length (handed_out h))).
Proof. intros B R. exact poll_answer. Qed.

(** ... and nothing exactly when all enqueued events were handed out. *)
Theorem C07_poll_empty : forall B R os (s : api_state B R) h,
  api_run api_init os = (s, h) ->
  (snd (api_step s Poll) = APoll None <-> length (handed_out h) = length (enqueued h)).
Proof. intros B R. exact poll_empty. Qed.

Definition ev (id : string) (b : nat) : event nat := {| ev_id := id; ev_body := b |}.
Definition ex_history : list (api_op nat nat) :=
  [ Poll; Enqueue (ev "a" 1); Enqueue (ev "b" 2); Poll; Enqueue (ev "a" 3); Poll;
    PostResult "b" 20; PostResult "b" 21; WaiterGone 0; PostResult "a" 10; Poll ].
Example C07_nonvacuous :
  map snd (snd (api_run api_init ex_history)) =
  [ APoll None; ANone; ANone; APoll (Some (0, ev "a" 1)); ANone; APoll (Some (1, ev "b" 2));
    AResult ResultProcessed; AResult EventNotFound; ANone; AResult UnexpectedError;
    APoll (Some (2, ev "a" 3)) ].
Proof. reflexivity. Qed.

(** *** C08 *)

(** A result for an id that is being processed reaches the waiter of the event
    handed out under it, and only that waiter. *)
Theorem C08_result_reaches_waiter : forall B R os (s : api_state B R) h id r tx e,
  api_run api_init os = (s, h) ->
  in_process h id (tx, e) -> ~ gave_up h tx ->
  exists s', api_step s (PostResult id r) = (s', AResult ResultProcessed)
    /\ delivered s' = delivered s ++ [(tx, (e, r))] /\ ev_id e = id.
Proof. intros B R. exact post_delivered. Qed.

Theorem C08_result_for_gone_waiter : forall B R os (s : api_state B R) h id r tx e,
  api_run api_init os = (s, h) ->
  in_process h id (tx, e) -> gave_up h tx ->
  exists s', api_step s (PostResult id r) = (s', AResult UnexpectedError) /\ delivered s' = delivered s.
Proof. intros B R. exact post_gone. Qed.

Theorem C08_unknown_id_not_found : forall B R os (s : api_state B R) h id r,
  api_run api_init os = (s, h) ->
  (forall te, ~ in_process h id te) ->
  api_step s (PostResult id r) = (s, AResult EventNotFound).
Proof. intros B R. exact post_unknown. Qed.

Theorem C08_only_results_deliver : forall B R (s : api_state B R) o,
  (forall id r, o <> PostResult id r) -> delivered (fst (api_step s o)) = delivered s.
Proof. intros B R. exact only_results_deliver. Qed.

(** At most one result per waiter; what it received is the event it enqueued, and
    a result posted for that event's id. *)
Theorem C08_at_most_one_result : forall B R os (s : api_state B R) h,
  api_run api_init os = (s, h) ->
  NoDup (map fst (delivered s))
  /\ forall tx e r, In (tx, (e, r)) (delivered s) ->
       nth_error (enqueued h) tx = Some e
       /\ In (tx, e) (handed_out h)
       /\ In (PostResult (ev_id e) r, AResult ResultProcessed) h.
Proof. intros B R. exact delivered_once. Qed.

(** With distinct ids, an event handed out keeps waiting until its result is posted. *)
Theorem C08_handed_out_stays_known : forall B R os (s : api_state B R) h tx e,
  api_run api_init os = (s, h) ->
  NoDup (map ev_id (enqueued h)) ->
  In (tx, e) (handed_out h) -> (forall r a, ~ In (PostResult (ev_id e) r, a) h) ->
  in_process h (ev_id e) (tx, e).
Proof. intros B R. exact handed_stays. Qed.

Example C08_nonvacuous :
  let h := snd (api_run api_init ex_history) in
  let s := fst (api_run api_init ex_history) in
  delivered s = [(1, (ev "b" 2, 20))]
  /\ in_process h "a" (2, ev "a" 3) /\ ~ gave_up h 2
  /\ snd (api_step s (PostResult "a" 30)) = AResult ResultProcessed.
Proof.
  cbn. repeat split.
  - apply last_value_assigned. reflexivity.
  - intros [a H]. repeat (destruct H as [H|H]; [inversion H|]). destruct H.
Qed.

(** *** C09 *)

Theorem C09_all_sent : forall W (send : sender W) ms w w',
  ws_messages (Some send) w ms = (w', None) <-> AllSent send w ms w'.
Proof. exact ws_ok. Qed.

Theorem C09_stops_at_first_failure : forall W (send : sender W) ms w w' e,
  ws_messages (Some send) w ms = (w', Some e) <->
  e = WsUnexpectedError /\
  exists pre m post w1, ms = pre ++ m :: post /\ AllSent send w pre w1 /\ SendFails send w1 m w'.
Proof. exact ws_fail. Qed.

Theorem C09_no_registry : forall W (w : W) ms, ws_messages None w ms = (w, Some WsNotEnabled).
Proof. reflexivity. Qed.

(** A world that records what was sent and fails for connection "c2". *)
Definition ex_send : sender (list string) := fun w c i m ctx =>
  if String.eqb c "c2" then (w, false) else (w ++ [m], true).
Definition wm c m := {| wm_connection_id := c; wm_inform_clients_on_loss := Some ["x"%string];
                        wm_message_id := "id"; wm_message := m |}.
Example C09_nonvacuous :
  ws_messages (Some ex_send) [] [wm "c1" "m1"; wm "c2" "m2"; wm "c3" "m3"] = (["m1"%string], Some WsUnexpectedError)
  /\ ws_messages (Some ex_send) [] [wm "c1" "m1"; wm "c3" "m3"] = (["m1"%string; "m3"%string], None).
Proof. split; reflexivity. Qed.

(** *** C57: the configuration the handlers executable fetches *)

(** Every configured handler is listed once, in order, with its own fields. *)
Theorem C57_http_handlers_listed : forall hs ws t cs ss i h,
  nth_error hs i = Some h ->
  let rc := runtime_config_of {| ac_api := Some (Some hs, ws, t); ac_consumers := cs; ac_schedules := ss |} in
  length (rc_http rc) = length hs
  /\ nth_error (rc_http rc) i =
     Some {| he_name := hh_name h; he_tag := (hh_method h ++ "::" ++ hh_path h)%string;
             he_fields := [hh_path h; hh_method h]; he_timeout := hh_timeout h; he_tracing := hh_tracing h |}.
Proof.
  intros hs ws t cs ss i h H rc. subst rc. cbn. rewrite map_length. split; [reflexivity|].
  now rewrite nth_error_map, H.
Qed.

Theorem C57_websocket_handlers_listed : forall hs ws t cs ss i h,
  nth_error ws i = Some h ->
  let rc := runtime_config_of {| ac_api := Some (hs, Some ws, t); ac_consumers := cs; ac_schedules := ss |} in
  length (rc_websocket rc) = length ws
  /\ nth_error (rc_websocket rc) i =
     Some {| he_name := wh_name h; he_tag := (wh_route_key h ++ "::" ++ wh_route h)%string;
             he_fields := [wh_route_key h; wh_route h]; he_timeout := wh_timeout h; he_tracing := wh_tracing h |}.
Proof.
  intros hs ws t cs ss i h H rc. subst rc. cbn. rewrite map_length. split; [reflexivity|].
  now rewrite nth_error_map, H.
Qed.

Theorem C57_consumer_handlers_listed : forall api cs ss e,
  In e (rc_consumer (runtime_config_of {| ac_api := api; ac_consumers := Some cs; ac_schedules := ss |})) <->
  exists k h, In k cs /\ In h (cc_handlers k) /\
    e = {| he_name := eh_name h; he_tag := ("source::" ++ cc_source_id k ++ "::" ++ eh_name h)%string;
           he_fields := [cc_source_id k]; he_timeout := eh_timeout h; he_tracing := eh_tracing h |}.
Proof.
  intros. cbn. rewrite in_flat_map. split.
  - intros (k & Hk & H). apply in_map_iff in H. destruct H as (h & <- & Hh). exists k, h. auto.
  - intros (k & h & Hk & Hh & ->). exists k. split; [exact Hk|]. apply in_map_iff. exists h. auto.
Qed.

Theorem C57_schedule_handlers_listed : forall api cs ss e,
  In e (rc_schedule (runtime_config_of {| ac_api := api; ac_consumers := cs; ac_schedules := Some ss |})) <->
  exists k h, In k ss /\ In h (sch_handlers k) /\
    e = {| he_name := eh_name h; he_tag := ("source::" ++ sch_id k ++ "::" ++ eh_name h)%string;
           he_fields := [sch_value k]; he_timeout := eh_timeout h; he_tracing := eh_tracing h |}.
Proof.
  intros. cbn. rewrite in_flat_map. split.
  - intros (k & Hk & H). apply in_map_iff in H. destruct H as (h & <- & Hh). exists k, h. auto.
  - intros (k & h & Hk & Hh & ->). exists k. split; [exact Hk|]. apply in_map_iff. exists h. auto.
Qed.

Theorem C57_state_handlers_listed : forall hs i h,
  nth_error hs i = Some h ->
  length (state_handler_entries (Some hs)) = length hs
  /\ nth_error (state_handler_entries (Some hs)) i =
     Some {| he_name := sh_name h; he_tag := ("state::" ++ sh_state h)%string;
             he_fields := [sh_state h]; he_timeout := sh_timeout h; he_tracing := sh_tracing h |}.
Proof.
  intros hs i h H. cbn. rewrite map_length. split; [reflexivity|]. now rewrite nth_error_map, H.
Qed.

(** Tags identify HTTP handlers: methods contain no colon, so two handlers with
    the same tag have the same method and path. *)
(** Tracing is on exactly if the API says so, and what the application does not have is not listed. *)
Theorem C57_tracing : forall c, rc_tracing (runtime_config_of c) = true <-> exists hs ws, ac_api c = Some (hs, ws, true).
Proof.
  intros [[[[hs ws] t]|] cs ss]; cbn; split; [intros ->; eauto|now intros (? & ? & [= _ _ ->])|discriminate|intros (? & ? & ?); discriminate].
Qed.
Theorem C57_nothing_else : forall c,
  ((forall hs ws t, ac_api c <> Some (Some hs, ws, t)) -> rc_http (runtime_config_of c) = []) /\
  ((forall hs ws t, ac_api c <> Some (hs, Some ws, t)) -> rc_websocket (runtime_config_of c) = []) /\
  (ac_consumers c = None -> rc_consumer (runtime_config_of c) = []) /\
  (ac_schedules c = None -> rc_schedule (runtime_config_of c) = []) /\
  state_handler_entries None = [].
Proof.
  intros [[[[[hs|] [ws|]] t]|] cs ss]; cbn; (split; [intros H; first [reflexivity|now elim (H _ _ _ eq_refl)]|]); (split; [intros H; first [reflexivity|now elim (H _ _ _ eq_refl)]|]); (split; [now intros ->|]); (split; [now intros ->|reflexivity]).
Qed.
Theorem C57_http_tags_identify : forall m1 p1 m2 p2, no_colon m1 -> no_colon m2 ->
  (m1 ++ "::" ++ p1 = m2 ++ "::" ++ p2)%string -> m1 = m2 /\ p1 = p2.
Proof. intros m1 p1 m2 p2. apply tag_inj. Qed.

Example C57_nonvacuous :
  no_colon "GET" /\
  rc_http (runtime_config_of {| ac_api := Some (Some [{| hh_name := "n"; hh_path := "/a::b"; hh_method := "GET";
      hh_timeout := 60%Z; hh_tracing := true |}], None, true); ac_consumers := None; ac_schedules := None |})
  = [{| he_name := "n"; he_tag := "GET::/a::b"; he_fields := ["/a::b"; "GET"]%string; he_timeout := 60%Z; he_tracing := true |}].
Proof. split; [intros [H|[H|[H|[]]]]; discriminate|reflexivity]. Qed.

Print Assumptions C07_first_in_first_out.
Print Assumptions C07_at_most_one_poller.
Print Assumptions C07_poll_answer.
Print Assumptions C07_poll_empty.
Print Assumptions C08_result_reaches_waiter.
Print Assumptions C08_result_for_gone_waiter.
Print Assumptions C08_unknown_id_not_found.
Print Assumptions C08_at_most_one_result.
Print Assumptions C08_handed_out_stays_known.
Print Assumptions C09_all_sent.
Print Assumptions C09_stops_at_first_failure.
Print Assumptions C57_consumer_handlers_listed.
Print Assumptions C57_http_tags_identify.
Print Assumptions C57_tracing.
Print Assumptions C57_nothing_else.
