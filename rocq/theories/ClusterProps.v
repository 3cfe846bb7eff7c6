(** Sending to connections across a cluster: C34, C35, C36 and C62. *)
From Verif Require Import Base AckModel AckSpec AckProofs ClusterModel ClusterSpec ClusterTrans ClusterNode ClusterCalls ClusterSafety ClusterDeliver ClusterNet ClusterSettle.
Open Scope string_scope.
Local Open Scope list_scope.

Definition cf9 : ack_config := {| cf_timeout := 10; cf_max := 2 |}.
(** Three nodes; the third and further share a name. *)
Definition demo0 : cluster :=
  {| cl_size := 3;
     cl_node := fun i => match i with 0 => new_node "n1" "n1" true cf9 | 1 => new_node "n2" "n2" true cf9 | _ => new_node "n3" "n3" true cf9 end |}.
Lemma demo0_fresh : fresh demo0.
Proof. intros [|[|i]]; unfold demo0; cbn; eauto. Qed.

Definition after (c0 : cluster) (evs : list (nat * node_event)) : cluster * list (nat * nlog) :=
  match crun c0 [] evs with Some p => p | None => (c0, []) end.

Definition runs (c0 : cluster) (evs : list (nat * node_event)) : bool := match crun c0 [] evs with Some _ => true | None => false end.
Lemma none_in (f : nat * nlog -> bool) log : forallb f log = true -> forall e, In e log -> f e = true.
Proof. intros H. now apply forallb_forall. Qed.
Lemma after_reach c0 evs : fresh c0 -> runs c0 evs = true -> creachable c0 (fst (after c0 evs)) (snd (after c0 evs)).
Proof.
  unfold runs, after. intros F H. split; [exact F|]. exists evs. destruct (crun c0 [] evs) as [[c l]|]; [reflexivity|discriminate].
Qed.

(** Node 0 sends to a connection of node 1 and waits for the acknowledgement. *)
Definition demo_evs : list (nat * node_event) :=
  [(0, EStart); (1, EAdd "conn"); (2, EAdd "other"); (0, ECall "conn" "m1" "hello" ["other"] true);
   (0, EJob 0 true); (0, EJob 0 true); (0, EJob 0 true); (0, EJob 0 true);
   (0, EForward true); (0, ETake); (1, ETake); (2, ETake);
   (1, EListen true); (1, EListen true); (1, EListen true); (1, EListen true);
   (2, EListen true); (2, EListen true);
   (1, EForward true); (0, ETake); (1, ETake); (2, ETake); (0, EListen true);
   (0, EWorkerRecv 5%N); (0, EWorkerRecv 5%N); (0, EWorkerRecv 6%N); (0, EWorker (WPoll 0))].
Definition demo_c : cluster := fst (after demo0 demo_evs).
Definition demo_log : list (nat * nlog) := snd (after demo0 demo_evs).
Lemma demo_reach : creachable demo0 demo_c demo_log.
Proof. apply after_reach; [exact demo0_fresh|]. vm_compute. reflexivity. Qed.
Definition demo_m : ws_message := {| wm_conn := "conn"; wm_source := "n1"; wm_inform := ["other"]; wm_id := "m1"; wm_text := "hello" |}.
Lemma demo_settled : settled demo_c.
Proof.
  intros i Hi. assert (cl_size demo_c = 3%nat) by (vm_compute; reflexivity). rewrite H in Hi.
  destruct i as [|[|[|i]]]; [| | |lia]; vm_compute; repeat split.
Qed.

(** ** C34 *)

(** The effects of every send, in order, are a prefix of one of four complete traces:
    written to the local connection; nothing (no broadcaster); recorded as pending but
    not published (the broadcaster is gone); or recorded as pending, published exactly
    once and, when asked, waited for.  A returned call has the complete trace.  It is
    recorded and waited for whenever the tracker was running when the call was made. *)
Theorem C34_send_outcome :
  forall c0 c log i k conn id text inform wait, creachable c0 c log -> In (i, NCall k conn id text inform wait) log ->
  exists rest rec reg,
    call_trace (n_name (cl_node c0 i)) (n_bcast (cl_node c0 i)) k conn id text inform wait rec reg
      (filter (of_call k) (on_node i log) ++ rest) /\
    ((exists r, In (i, NReturn k r) log) -> rest = []) /\
    (forall pre post, on_node i log = pre ++ NCall k conn id text inform wait :: post -> In NStarted pre -> rec = true /\ reg = true).
Proof.
  intros c0 c log i k conn id text inform wait R H. pose proof (creachable_node _ _ _ R i) as Hh.
  destruct (static_hist _ _ _ R) as [_ S]. destruct (S i) as (<- & _ & <- & _). apply on_node_In in H.
  destruct (call_prefix _ _ _ _ _ _ _ _ Hh H) as (rest & rec & reg & A & B & C).
  exists rest, rec, reg. split; [exact A|]. split.
  - intros (r & Hr). apply B. exists r. now apply on_node_In.
  - intros pre post E Hs. apply C. exists pre, conn, id, text, inform, wait, post. auto.
Qed.

(** A connection counts as local exactly when it was added to this node and not
    removed since. *)
Theorem C34_local_iff_registered :
  forall c0 c log i pre w conn found post, creachable c0 c log -> on_node i log = pre ++ NFound w conn found :: post ->
  (found = true <-> registered conn pre).
Proof. intros. eapply found_registered; [eapply creachable_node; eauto|eauto]. Qed.

Example C34_nonvacuous : In (0, NCall 0 "conn" "m1" "hello" ["other"] true) demo_log /\ In (0, NReturn 0 RSent) demo_log /\
  filter (of_call 0) (on_node 0 demo_log) =
  [NCall 0 "conn" "m1" "hello" ["other"] true; NFound (ByCall 0) "conn" false;
   NInbox (ByCall 0) (MStatus "m1" (Pending "hello" ["other"])); NOut (ByCall 0) (MsgWs demo_m);
   NInbox (ByCall 0) (MWait "m1" 0); NReturn 0 RSent].
Proof. vm_compute. intuition. Qed.

(** ** C35 *)

(** On every node, at every moment: the messages processed so far are the first of the
    published messages meant for it, in publication order, each exactly once; all of
    them once its queues are empty. *)
Theorem C35_processes_exactly_the_addressed :
  forall c0 c log i meant, creachable c0 c log ->
  (forall w, meant w = true <-> addressed (n_bus (cl_node c0 i)) w) ->
  exists rest, map wr_message (filter meant (published log)) = heard (on_node i log) ++ rest /\
    (n_sub (cl_node c i) = [] -> n_in (cl_node c i) = [] -> rest = []).
Proof.
  intros c0 c log i meant R Hm. pose proof (creachable_node _ _ _ R i) as Hh. destruct (static_hist _ _ _ R) as [_ S]. destruct (S i) as (_ & Eb & _).
  rewrite (filter_ext meant (relevant (n_bus (cl_node c0 i)))).
  2:{ intros w. destruct (meant w) eqn:E1, (relevant (n_bus (cl_node c0 i)) w) eqn:E2; try reflexivity.
      - apply Hm, relevant_addressed in E1. congruence.
      - apply relevant_addressed, Hm in E2. congruence. }
  rewrite (bus_hist _ _ _ R i), filter_app, map_app, <- Eb, (conserve_in _ _ Hh), <- app_assoc.
  eexists. split; [reflexivity|]. intros E1 E2. now rewrite E1, E2.
Qed.

(** What a node processes was published by a node with another name, and an
    acknowledgement names this node. *)
Theorem C35_never_its_own :
  forall c0 c log v m, creachable c0 c log -> In (v, NHear m) log ->
  exists u o, (u < cl_size c0)%nat /\ n_bus (cl_node c0 u) <> n_bus (cl_node c0 v) /\ In (u, NOut o m) log /\
    (forall node id, m = MsgAck node id -> node = n_bus (cl_node c0 v)).
Proof. exact heard_published. Qed.

Example C35_nonvacuous : length (published demo_log) = 2%nat /\ heard (on_node 0 demo_log) = [MsgAck "n1" "m1"] /\
  heard (on_node 1 demo_log) = [MsgWs demo_m] /\ heard (on_node 2 demo_log) = [MsgWs demo_m] /\
  n_sub (cl_node demo_c 2) = [] /\ n_in (cl_node demo_c 2) = [].
Proof. vm_compute. repeat split. Qed.

(** ** C36 *)

(** Once nothing is under way, a message published while the connection was held by
    another node (and not removed since) has been written there after the publication,
    or that node's own tracker holds the message id as already received. *)
Theorem C36_delivered :
  forall c0 c log pre u m post v, creachable c0 c log -> settled c ->
  log = pre ++ (u, NForward {| wr_source := n_bus (cl_node c0 u); wr_message := MsgWs m |} true) :: post ->
  (v < cl_size c0)%nat -> n_bus (cl_node c0 v) <> n_bus (cl_node c0 u) ->
  registered (wm_conn m) (on_node v pre) -> ~ In (v, NRemove (wm_conn m)) post ->
  (exists ok, In (v, NWrite (ByListener m) (wm_conn m) (wm_text m) ok) post) \/
  (In (v, NSkip m) post /\ exists tx, In (v, NWorker (LCheck (wm_id m) tx Received)) log).
Proof. exact delivered. Qed.

(** With distinct node names the second case needs a call with the same message id on
    the receiving node. *)
Theorem C36_delivered_unless_id_reused :
  forall c0 c log pre u m post v, creachable c0 c log -> settled c ->
  (forall i, n_name (cl_node c0 i) = n_bus (cl_node c0 i)) ->
  (forall i j, (i < cl_size c0)%nat -> (j < cl_size c0)%nat -> n_bus (cl_node c0 i) = n_bus (cl_node c0 j) -> i = j) ->
  log = pre ++ (u, NForward {| wr_source := n_bus (cl_node c0 u); wr_message := MsgWs m |} true) :: post ->
  (v < cl_size c0)%nat -> (u < cl_size c0)%nat -> u <> v ->
  registered (wm_conn m) (on_node v pre) -> ~ In (v, NRemove (wm_conn m)) post ->
  (forall k conn text inform wait, ~ In (v, NCall k conn (wm_id m) text inform wait) log) ->
  exists ok, In (v, NWrite (ByListener m) (wm_conn m) (wm_text m) ok) post.
Proof.
  intros c0 c log pre u m post v R Hs Hn Hd E Hv Hu Huv Hr Hrm Hnc.
  assert (Hb: n_bus (cl_node c0 v) <> n_bus (cl_node c0 u)) by (intros X; apply Huv; symmetry; auto).
  destruct (delivered c0 c log pre u m post v R Hs E Hv Hb Hr Hrm) as [H|[_ (tx & H)]]; [exact H|].
  exfalso. apply on_node_In in H. destruct (check_recorded _ _ _ _ (creachable_node _ _ _ R v) H) as (t & Ht).
  apply In_tracker_log, on_node_In in Ht. destruct (tracked_received _ _ _ _ _ _ R Ht) as (w & Hw).
  destruct (received_traced _ _ _ _ _ _ R Hw) as (v' & m' & ok & _ & _ & _ & _ & _ & u' & Hu' & En & (k & c' & i & wt & G & _)).
  assert (u' = v) by (apply Hd; auto; congruence). subst u'. eapply Hnc. exact G.
Qed.

(** The sending node learns of it: once nothing is under way, a node that wrote a message
    of node [u] has told [u]'s tracker, provided the tracker was started before [u]
    began to listen and the acknowledgement could be published. *)
Theorem C36_acknowledged :
  forall c0 c log u m v cc t ok a b, creachable c0 c log -> settled c -> (u < cl_size c0)%nat -> (v < cl_size c0)%nat ->
  n_bus (cl_node c0 v) <> n_bus (cl_node c0 u) -> wm_source m = n_bus (cl_node c0 u) -> n_bcast (cl_node c0 v) = true ->
  In (v, NWrite (ByListener m) cc t ok) log ->
  ~ In (v, NOutFail (ByListener m)) log -> (forall x, ~ In (v, NForward x false) log) ->
  on_node u log = a ++ NStarted :: b -> heard a = [] ->
  exists t, In (u, NWorker (LRecord (wm_id m) Received t)) log.
Proof. intros. eapply acknowledged; eauto. Qed.

(** The bus always goes quiet: from any moment on, only a bounded number of bus and
    listener steps can be made before one of: new calls, timers, retries; and unless
    the cluster is settled some such step is possible. *)
Theorem C36_settles :
  forall c0 c log, creachable c0 c log ->
  exists bound, forall evs c' log', (forall i ev, In (i, ev) evs -> internal ev = true) -> crun c log evs = Some (c', log') ->
    (length evs <= bound)%nat /\ (settled c' \/ exists i ev, internal ev = true /\ cstep c' i ev <> None).
Proof.
  intros c0 c log R. exists (weight (cl_size c) (cl_node c)). intros evs c' log' Hi H.
  pose proof (crun_weight _ _ _ _ _ Hi H). split; [lia|]. apply (cluster_progress c0 c' log').
  destruct R as (F & evs0 & HR0). split; [exact F|]. exists (evs0 ++ evs). now rewrite crun_app, HR0.
Qed.

(** Every text ever written to a connection on any node is the text of a send, made on
    some node, to that connection or whose message id is that connection's id. *)
Theorem C36_only_sent_messages_are_written :
  forall c0 c log v w conn text ok, creachable c0 c log -> In (v, NWrite w conn text ok) log ->
  exists u k conn' id inform wait, In (u, NCall k conn' id text inform wait) log /\ (conn = conn' \/ conn = id).
Proof.
  intros c0 c log v w conn text ok R H. destruct (write_traced _ _ _ _ _ _ _ _ R H) as (u & id & (k & c' & i & wt & G & E) & _).
  exists u, k, c', id, i, wt. auto.
Qed.

(** So a connection whose id is not used as a message id only gets what was sent to it. *)
Theorem C36_no_other_connection :
  forall c0 c log v w conn text ok, creachable c0 c log -> In (v, NWrite w conn text ok) log ->
  (forall u k conn' text' inform wait, ~ In (u, NCall k conn' conn text' inform wait) log) ->
  exists u k id inform wait, In (u, NCall k conn id text inform wait) log.
Proof.
  intros c0 c log v w conn text ok R H Hn. destruct (write_traced _ _ _ _ _ _ _ _ R H) as (u & id & (k & c' & i & wt & G & [->| ->]) & _).
  - exists u, k, id, i, wt. exact G.
  - exfalso. eapply Hn. exact G.
Qed.

(** In general it fails: a retry is addressed to the message id, so a message sent to
    "A" is written to a connection called like the message. *)
Definition stray_evs : list (nat * node_event) :=
  [(0, EStart); (0, EAdd "B"); (0, ECall "A" "B" "secret" [] false); (0, EJob 0 true); (0, EJob 0 true); (0, EJob 0 true);
   (0, EWorkerRecv 0%N); (0, EWorker (WTick 20%N)); (0, EWorker WScan); (0, EWorker WSend);
   (0, EConsumer true); (0, EConsumer true); (0, EConsumer true)].
Theorem C36_no_other_connection_refuted :
  exists c0 c log v w conn text ok, creachable c0 c log /\ In (v, NWrite w conn text ok) log /\
    forall u k id inform wait, ~ In (u, NCall k conn id text inform wait) log.
Proof.
  exists demo0, (fst (after demo0 stray_evs)), (snd (after demo0 stray_evs)), 0, ByResend, "B", "secret", true. split.
  { apply after_reach; [exact demo0_fresh|]. vm_compute. reflexivity. }
  split; [vm_compute; intuition|].
  intros u k id inform wait H.
  apply (none_in (fun e => match snd e with NCall _ c _ _ _ _ => negb (String.eqb c "B") | _ => true end)) in H; [discriminate H|].
  vm_compute. reflexivity.
Qed.

(** No message is written more often than it was published by other nodes, and each
    publication is, in the end, either written or dropped, never both. *)
Theorem C36_written_at_most_once_per_publication :
  forall c0 c log v m, creachable c0 c log ->
  (remote_writes m (on_node v log) + remote_drops m (on_node v log) <= publications (n_bus (cl_node c0 v)) m (published log))%nat /\
  (settled c -> (v < cl_size c0)%nat ->
   remote_writes m (on_node v log) + remote_drops m (on_node v log) = publications (n_bus (cl_node c0 v)) m (published log))%nat.
Proof. intros. split; [eapply writes_bound; eauto|intros; eapply writes_all; eauto]. Qed.

(** A message the receiving node already holds as received is dropped. *)
Theorem C36_received_is_dropped :
  forall c0 c log v pre id tx post, creachable c0 c log -> on_node v log = pre ++ NWorker (LCheck id tx Received) :: post ->
  exists m rest, post = NSkip m :: rest /\ wm_id m = id.
Proof. intros. eapply received_skipped; [eapply creachable_node; eauto|eauto]. Qed.

Example C36_nonvacuous : settled demo_c /\
  (exists pre post, demo_log = pre ++ (0, NForward {| wr_source := "n1"; wr_message := MsgWs demo_m |} true) :: post /\
     registered "conn" (on_node 1 pre) /\ ~ In (1, NRemove "conn") post /\
     In (1, NWrite (ByListener demo_m) "conn" "hello" true) post) /\
  ~ In (1, NOutFail (ByListener demo_m)) demo_log /\
  (exists b, on_node 0 demo_log = [] ++ NStarted :: b) /\
  In (0, NWorker (LRecord "m1" Received 6%N)) demo_log /\
  remote_writes demo_m (on_node 1 demo_log) = 1%nat.
Proof.
  split; [exact demo_settled|]. split.
  { exists (firstn 8 demo_log), (skipn 9 demo_log). split; [vm_compute; reflexivity|]. split; [|split].
    - apply (conns_registered (cl_node (fst (after demo0 (firstn 8 demo_evs))) 1)); [|vm_compute; reflexivity].
      assert (R: creachable demo0 (fst (after demo0 (firstn 8 demo_evs))) (firstn 8 demo_log)).
      { replace (firstn 8 demo_log) with (snd (after demo0 (firstn 8 demo_evs))) by (vm_compute; reflexivity).
        apply after_reach; [exact demo0_fresh|]. vm_compute. reflexivity. }
      exact (creachable_node _ _ _ R 1).
    - vm_compute. intuition discriminate.
    - vm_compute. intuition. }
  split; [vm_compute; intuition discriminate|]. split; [eexists; vm_compute; reflexivity|].
  split; vm_compute; intuition.
Qed.

Definition dropped_evs : list (nat * node_event) := demo_evs ++
  [(0, EAdd "c0"); (1, ECall "c0" "m1" "x" [] false); (1, EJob 0 true); (1, EJob 0 true); (1, EJob 0 true);
   (1, EForward true); (0, ETake); (0, EListen true); (0, EWorkerRecv 9%N)].
Example C36_dropped_nonvacuous : runs demo0 dropped_evs = true /\
  (exists pre m, on_node 0 (snd (after demo0 dropped_evs)) = pre ++ NWorker (LCheck "m1" 0 Received) :: [NSkip m]).
Proof.
  split; [vm_compute; reflexivity|].
  exists (firstn 19 (on_node 0 (snd (after demo0 dropped_evs)))), {| wm_conn := "c0"; wm_source := "n2"; wm_inform := []; wm_id := "m1"; wm_text := "x" |}.
  vm_compute. reflexivity.
Qed.

(** ** C62 *)

(** A send that asked to wait, registered its wait and succeeded: some other node wrote a
    message with this message id, on behalf of this node's name, to the socket, and
    reported it.  Missing from the full claim: that the write succeeded, and that the
    tracker was running. *)
Theorem C62_waited_success_means_written_partial :
  forall c0 c log u k id, creachable c0 c log -> In (u, NInbox (ByCall k) (MWait id k)) log -> In (u, NReturn k RSent) log ->
  exists v m ok, (v < cl_size c0)%nat /\ n_bus (cl_node c0 v) <> n_bus (cl_node c0 u) /\
    In (v, NWrite (ByListener m) (wm_conn m) (wm_text m) ok) log /\ wm_id m = id /\ wm_source m = n_bus (cl_node c0 u) /\
    exists u' k' conn inform wait, n_name (cl_node c0 u') = n_bus (cl_node c0 u) /\
      In (u', NCall k' conn id (wm_text m) inform wait) log /\ (wm_conn m = conn \/ wm_conn m = id).
Proof.
  intros c0 c log u k id R H1 H2. pose proof (creachable_node _ _ _ R u) as Hh. apply on_node_In in H1, H2.
  pose proof (waited_received _ _ Hh _ _ H1 H2) as H. destruct (wait_recorded _ _ _ _ Hh H) as (t & Ht).
  apply In_tracker_log, on_node_In in Ht. destruct (tracked_received _ _ _ _ _ _ R Ht) as (w & Hw).
  destruct (received_traced _ _ _ _ _ _ R Hw) as (v & m & ok & A & B & C & D & E & u' & _ & En & (k' & c' & i & wt & G & F)).
  exists v, m, ok. repeat (split; [assumption|]). exists u', k', c', i, wt. auto.
Qed.

(** The write may have failed: the receiving node acknowledges anyway. *)
Definition failed_evs : list (nat * node_event) :=
  [(0, EStart); (1, EAdd "conn"); (0, ECall "conn" "m1" "hello" [] true);
   (0, EJob 0 true); (0, EJob 0 true); (0, EJob 0 true); (0, EJob 0 true);
   (0, EForward true); (0, ETake); (1, ETake);
   (1, EListen true); (1, EListen true); (1, EListen false); (1, EListen true);
   (1, EForward true); (0, ETake); (0, EListen true);
   (0, EWorkerRecv 5%N); (0, EWorkerRecv 5%N); (0, EWorkerRecv 6%N); (0, EWorker (WPoll 0))].
Theorem C62_waited_success_means_delivered_refuted :
  exists c0 c log u k id, creachable c0 c log /\ In (u, NInbox (ByCall k) (MWait id k)) log /\ In (u, NReturn k RSent) log /\
    forall v w conn text ok, In (v, NWrite w conn text ok) log -> ok = false.
Proof.
  exists demo0, (fst (after demo0 failed_evs)), (snd (after demo0 failed_evs)), 0, 0, "m1". split.
  { apply after_reach; [exact demo0_fresh|]. vm_compute. reflexivity. }
  split; [vm_compute; intuition|]. split; [vm_compute; intuition|].
  intros v w conn text ok H.
  apply (none_in (fun e => match snd e with NWrite _ _ _ ok => negb ok | _ => true end)) in H; [destruct ok; [discriminate H|reflexivity]|].
  vm_compute. reflexivity.
Qed.

(** A send that asked to wait reports success at once when the tracker was not started,
    although no node has the connection. *)
Definition untracked_evs : list (nat * node_event) :=
  [(0, ECall "conn" "m1" "hello" [] true); (0, EJob 0 true); (0, EJob 0 true); (0, EJob 0 true); (0, EJob 0 true)].
Theorem C62_waits_for_acknowledgement_refuted :
  exists c0 c log u k conn id text inform, creachable c0 c log /\ In (u, NCall k conn id text inform true) log /\
    n_bcast (cl_node c0 u) = true /\ In (u, NReturn k RSent) log /\ forall v w cc t ok, ~ In (v, NWrite w cc t ok) log.
Proof.
  exists demo0, (fst (after demo0 untracked_evs)), (snd (after demo0 untracked_evs)), 0, 0, "conn", "m1", "hello", []. split.
  { apply after_reach; [exact demo0_fresh|]. vm_compute. reflexivity. }
  split; [vm_compute; intuition|]. split; [reflexivity|]. split; [vm_compute; intuition|].
  intros v w cc t ok H.
  apply (none_in (fun e => match snd e with NWrite _ _ _ _ => false | _ => true end)) in H; [discriminate H|].
  vm_compute. reflexivity.
Qed.

(** Without a broadcaster a send to an unknown connection is reported as successful. *)
Definition alone : cluster := {| cl_size := 1; cl_node := fun _ => new_node "n1" "n1" false cf9 |}.
Definition alone_evs : list (nat * node_event) := [(0, ECall "nobody" "m1" "hello" [] true); (0, EJob 0 true)].
Theorem C62_success_means_sent_somewhere_refuted :
  exists c0 c log u k conn id text inform wait, creachable c0 c log /\ In (u, NCall k conn id text inform wait) log /\
    In (u, NReturn k RSent) log /\ (forall v w cc t ok, ~ In (v, NWrite w cc t ok) log) /\ (forall v w m, ~ In (v, NOut w m) log).
Proof.
  exists alone, (fst (after alone alone_evs)), (snd (after alone alone_evs)), 0, 0, "nobody", "m1", "hello", [], true. split.
  { apply after_reach; [intros i; unfold alone; cbn; eauto|]. vm_compute. reflexivity. }
  split; [vm_compute; intuition|]. split; [vm_compute; intuition|].
  split; intros; intros H;
    (apply (none_in (fun e => match snd e with NWrite _ _ _ _ | NOut _ _ => false | _ => true end)) in H; [discriminate H|]);
    vm_compute; reflexivity.
Qed.

Example C62_nonvacuous : In (0, NInbox (ByCall 0) (MWait "m1" 0)) demo_log /\ In (0, NReturn 0 RSent) demo_log.
Proof. vm_compute. intuition. Qed.

Print Assumptions C34_send_outcome.
Print Assumptions C34_local_iff_registered.
Print Assumptions C35_processes_exactly_the_addressed.
Print Assumptions C35_never_its_own.
Print Assumptions C36_delivered.
Print Assumptions C36_delivered_unless_id_reused.
Print Assumptions C36_acknowledged.
Print Assumptions C36_settles.
Print Assumptions C36_only_sent_messages_are_written.
Print Assumptions C36_no_other_connection.
Print Assumptions C36_no_other_connection_refuted.
Print Assumptions C36_written_at_most_once_per_publication.
Print Assumptions C36_received_is_dropped.
Print Assumptions C62_waited_success_means_written_partial.
Print Assumptions C62_waited_success_means_delivered_refuted.
Print Assumptions C62_waits_for_acknowledgement_refuted.
Print Assumptions C62_success_means_sent_somewhere_refuted.
