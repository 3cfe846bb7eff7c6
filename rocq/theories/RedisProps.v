(** C152-C155: the link between a node and Redis. *)
From Verif Require Import Base Json ClusterModel WireModel WireProofs RedisModel RedisSpec RedisProofs.
From Coq Require Import Lia.
Open Scope string_scope.
Local Open Scope list_scope.

(** * C152: what a node hears and says, whatever is on the channel *)

(** A node hears of what Redis pushed to it exactly the messages of other nodes that
    concern it, in order, whatever else is pushed: other programs' texts, things that are
    not texts, pushes of other kinds, its own messages, acknowledgements for others. *)
Theorem C152_hears : forall node evs l log, history node evs l log -> l_receiver l = true ->
  heard node (taken log) (got log ++ l_in l).
Proof. intros node evs l log H RC. now apply (li_heard _ _ _ _ (linv_history _ _ _ _ H)). Qed.

(** Pushes are taken in the order in which they arrived, and while the task runs none is lost. *)
Theorem C152_takes_in_order : forall node evs l log, history node evs l log ->
  (exists rest, taken log ++ rest = arrivals evs) /\ (l_task l = Running -> taken log ++ l_pushes l = arrivals evs).
Proof.
  intros node evs l log H. pose proof (linv_history _ _ _ _ H) as I. split.
  - destruct (li_prefix _ _ _ _ I) as (rest & P). eauto.
  - exact (li_taken _ _ _ _ I).
Qed.

(** What to hear of a sequence of pushes is determined by it. *)
Theorem C152_heard_fun : forall node ps ms ms', heard node ps ms -> heard node ps ms' -> ms = ms'.
Proof.
  intros node ps ms ms' A. revert ms'. induction A as [|p w ps ms C K A IH|p ps ms F A IH]; intros ms' B; inversion B; subst.
  - reflexivity.
  - rewrite (carries_fun p w w0) by assumption. f_equal. auto.
  - exfalso. eapply H1; eauto.
  - exfalso. eapply F; eauto.
  - auto.
Qed.

(** As long as the application keeps the receiver, and a connection or a sender is left,
    the task runs, whatever is pushed. *)
Theorem C152_survives : forall node evs l log, history node evs l log -> Forall server_push (arrivals evs) ->
  l_receiver l = true -> l_up l = true \/ l_senders l = true -> l_task l = Running.
Proof.
  intros node evs l log H F RC U. destruct (li_life _ _ _ _ (linv_history _ _ _ _ H) F RC) as [|[A B]]; [assumption|].
  destruct U; congruence.
Qed.

(** Messages are handed to Redis in the order in which they were sent, once each, under
    the name of the node; while the task runs none that was accepted is lost and none is refused. *)
Theorem C152_says : forall node evs l log, history node evs l log -> l_task l = Running ->
  map (fun m => {| wr_source := node; wr_message := m |}) (accepted log) =
  handed log ++ map (fun m => {| wr_source := node; wr_message := m |}) (l_out l) /\ refused log = [].
Proof.
  intros node evs l log H RN. pose proof (linv_history _ _ _ _ H) as I.
  split; [now apply (li_handed _ _ _ _ I)|now apply (li_refused _ _ _ _ I)].
Qed.

(** A running task takes any push, hands over any message whatever Redis makes of it, and the
    receiver gets what was passed on: nothing stands in the way. *)
Theorem C152_goes_on : forall l, l_task l = Running ->
  (l_pushes l <> [] -> exists l' p, lstep l EvTake = Some (l', [LTook p])) /\
  (forall m rest, l_out l = m :: rest -> (exists l', lstep l (EvForward false) = Some (l', [LFailed {| wr_source := l_node l; wr_message := m |}])) /\
     (l_up l = true -> exists l', lstep l (EvForward true) = Some (l', [LPublished {| wr_source := l_node l; wr_message := m |}]))) /\
  (forall m, l_senders l = true -> exists l', lstep l (EvSend m) = Some (l', [LSent m true])) /\
  (l_receiver l = true -> forall m rest, l_in l = m :: rest -> exists l', lstep l EvRecv = Some (l', [LGot m])).
Proof.
  intros l T. split; [|split; [|split]].
  - intros N. cbn [lstep]. rewrite T. destruct (l_pushes l) as [|p rest]; [now elim N|]. destruct (judge (l_node l) p); [eauto| |eauto]. destruct (l_receiver l); eauto.
  - intros m rest O. cbn [lstep]. rewrite T, O. split; [eauto|]. intros ->. eauto.
  - intros m S. cbn [lstep]. rewrite S, T. eauto.
  - intros RC m rest N. cbn [lstep]. rewrite RC, N. eauto.
Qed.

(** A message that one node hands to Redis and Redis pushes to another is heard there if
    and only if it is not an acknowledgement for a third. *)
Theorem C152_across : forall a b m channel, a <> b ->
  let p := {| p_kind := KMessage; p_data := [channel; VJson (w_wrapped {| wr_source := a; wr_message := m |})] |} in
  (match m with MsgAck n _ => n = b | MsgWs _ => True end -> heard b [p] [m]) /\
  (match m with MsgAck n _ => n <> b | MsgWs _ => False end -> heard b [p] []) /\
  heard a [p] [].
Proof.
  intros a b m ch D p.
  assert (C: carries p {| wr_source := a; wr_message := m |}).
  { split; [reflexivity|]. exists ch, (w_wrapped {| wr_source := a; wr_message := m |}), []. split; [reflexivity|apply wrapped_back]. }
  split; [|split].
  - intros K. apply (heard_one b p {| wr_source := a; wr_message := m |} [] []); [exact C|split; cbn; assumption|constructor].
  - intros K. apply heard_skip; [|constructor]. intros w C' [A B]. rewrite <- (carries_fun _ _ _ C C') in B. cbn in B. destruct m; tauto.
  - apply heard_skip; [|constructor]. intros w C' [A B]. rewrite <- (carries_fun _ _ _ C C') in A. now apply A.
Qed.

Definition chat : bus_message := MsgWs {| wm_conn := "c1"; wm_source := "a"; wm_inform := []; wm_id := "m1"; wm_text := "hi" |}.
Definition says (w : wrapped) : push := {| p_kind := KMessage; p_data := [VText; VJson (w_wrapped w)] |}.

Example C152_nonvacuous :
  let evs := [EvPush {| p_kind := KOtherKind; p_data := [] |}; EvPush {| p_kind := KMessage; p_data := [VText; VOther] |};
              EvPush (says {| wr_source := "a"; wr_message := chat |}); EvPush (says {| wr_source := "b"; wr_message := chat |});
              EvPush (says {| wr_source := "a"; wr_message := MsgAck "c" "m0" |}); EvSend (MsgAck "a" "m1");
              EvTake; EvTake; EvTake; EvForward true; EvTake; EvTake; EvRecv] in
  exists l log, history "b" evs l log /\ l_receiver l = true /\ l_task l = Running /\ Forall server_push (arrivals evs) /\
  got log = [chat] /\ handed log = [{| wr_source := "b"; wr_message := MsgAck "a" "m1" |}].
Proof.
  eexists _, _. split; [vm_compute; reflexivity|]. repeat split; try reflexivity.
  cbn. repeat constructor; intros K; try discriminate K; cbn; eauto.
Qed.

(** * C153: letting go of a link, or of the registry that uses it *)

(** In the documented use nothing ends when the application lets go of the registry: the
    task of the link, the subscription, the listener and the registry stay, and nothing
    that can happen afterwards, short of a push that no Redis server sends, ends them. *)
Theorem C153_no_shutdown_refuted : forall node evs o, orun (in_use node) evs = Some o -> Forall server_push (arrivals_o evs) ->
  l_task (o_link o) = Running /\ o_listener o = true /\ l_receiver (o_link o) = true /\ l_senders (o_link o) = true /\
  (~ In (OLink EvDown) evs -> l_up (o_link o) = true).
Proof. intros node evs o R F. destruct (oinv_run _ _ _ R F). auto. Qed.

(** The tracker and the task that consumes its actions keep each other, whatever becomes
    of the link; only a panic of the latter ends it. *)
Theorem C153_tracker_stays_refuted : forall node evs o, orun (in_use node) evs = Some o -> ~ In OConsumerPanics evs ->
  o_consumer o = true /\ o_tracker o = true.
Proof. exact tracker_run. Qed.

(** Only after the link has ended can the listener end: when it has read what was handed to it, it
    drops the receiver, and leaves the rest as it was, but for the sender if the registry goes. *)
Theorem C153_listener_ends : forall o, o_listener o = true -> l_in (o_link o) = [] -> l_task (o_link o) <> Running ->
  exists o', ostep o OListenerEnds = Some o' /\ o_listener o' = false /\ l_receiver (o_link o') = false /\
    o_handle o' = o_handle o /\ o_consumer o' = o_consumer o /\ o_tracker o' = o_tracker o /\ l_task (o_link o') = l_task (o_link o) /\
    l_senders (o_link o') = (o_handle o || o_consumer o) && l_senders (o_link o).
Proof.
  intros o L I T. cbn [ostep]. rewrite L, I. destruct (l_task (o_link o)) eqn:K; [now elim T|..];
  (eexists; split; [reflexivity|]); unfold settle, registry_lives; destruct (o_handle o) eqn:Eh, (o_consumer o) eqn:Ec; cbn; rewrite ?Eh, ?Ec, ?K; cbn; auto 10.
Qed.
(** A panic of the task that consumes the tracker's actions ends that task alone, but for the sender of
    the link if the registry goes with it; without a tracker it ends by itself. *)
Theorem C153_consumer_ends : forall o ev o', ostep o ev = Some o' -> ev = OConsumerPanics \/ ev = OConsumerEnds ->
  o_consumer o = true /\ (ev = OConsumerEnds -> o_tracker o = false) /\
  o_consumer o' = false /\ o_handle o' = o_handle o /\ o_listener o' = o_listener o /\ o_tracker o' = o_tracker o /\
  o_link o' = if o_handle o || o_listener o then o_link o else set_senders (o_link o) false.
Proof.
  intros o ev o' S [-> | ->]; cbn [ostep] in S; destruct (o_consumer o) eqn:C; try discriminate; cbn [andb negb] in S.
  2: destruct (o_tracker o) eqn:T; [discriminate|].
  all: injection S as <-; unfold settle, registry_lives; destruct (o_handle o) eqn:Eh, (o_listener o) eqn:El; cbn; rewrite ?Eh, ?El, ?T; cbn; repeat split; auto; discriminate.
Qed.
(** A link of which both halves were dropped goes on, however many messages pass by, as
    long as none of them concerns the node. *)
Theorem C153_idle_link_refuted : forall node evs1 evs2 l log l' log',
  history node evs1 l log -> Forall server_push (arrivals evs1) -> l_receiver l = false -> l_senders l = false -> l_up l = true -> l_task l = Running ->
  Forall (foreign node) (l_pushes l) -> lrun l log evs2 = Some (l', log') ->
  Forall server_push (arrivals evs2) -> Forall (foreign node) (arrivals evs2) -> ~ In EvDown evs2 ->
  l_task l' = Running /\ l_up l' = true.
Proof.
  intros node evs1 evs2 l log l' log' H F0 RC SD U T F R F2 F3 ND. pose proof (linv_history _ _ _ _ H) as I.
  rewrite <- (li_node _ _ _ _ I) in F, F3.
  eapply (idle_run (arrivals evs2)); eauto.
  pose proof (li_taken _ _ _ _ I T) as P. rewrite <- P in F0. apply Forall_app in F0. tauto.
Qed.

(** What does end the task of a link: a message that concerns the node, taken after the
    receiver was dropped; or, with nothing left to take, the loss of the connection and of
    every sender.  Nothing else does. *)
Theorem C153_what_ends_a_link : forall node evs l log ev l' out, history node evs l log -> Forall server_push (arrivals evs) ->
  l_task l = Running -> lstep l ev = Some (l', out) ->
  (l_task l' <> Running <->
   (ev = EvTake /\ l_receiver l = false /\ exists p rest w, l_pushes l = p :: rest /\ carries p w /\ concerns node w) \/
   (ev = EvElse /\ l_pushes l = [] /\ l_out l = [] /\ l_up l = false /\ l_senders l = false)).
Proof.
  intros node evs l log ev l' out H F T S. pose proof (linv_history _ _ _ _ H) as I. apply lstep_view in S.
  pose proof (li_taken _ _ _ _ I T) as P. rewrite <- P in F. apply Forall_app in F as [_ F].
  pose proof (li_node _ _ _ _ I) as N.
  split.
  - intros E. destruct S; cbn in E; try congruence.
    + left. split; [reflexivity|]. split; [assumption|]. rewrite N in H2. apply judge_pass in H2 as (w & C & K & _). exists p, rest, w. auto.
    + exfalso. refine (judge_panic _ p _ H2). rewrite H1 in F. now inversion F.
    + right. auto.
  - intros [(-> & RC & p & rest & w & Q & C & K)|(-> & A & B & C & D)].
    + inversion S; subst; cbn; try discriminate.
      * exfalso. rewrite Q in H1. injection H1 as <- <-. apply (foreign_judge (l_node l) p (wr_message w)); [|apply judge_pass; eauto].
        apply judge_foreign. congruence.
      * congruence.
    + inversion S; subst; cbn; discriminate.
Qed.

(** Once it has ended a send says so and the receiver sees the end after what was left. *)
Theorem C153_end_is_seen : forall l ev l' out, l_task l <> Running -> lstep l ev = Some (l', out) ->
  l_task l' = l_task l /\ handed out = [] /\ taken out = [] /\ accepted out = [] /\
  (forall m, ev = EvSend m -> out = [LSent m false]) /\ (ev = EvRecv -> out = match l_in l with m :: _ => [LGot m] | [] => [LClosed] end).
Proof.
  intros l ev l' out T S. apply lstep_view in S. destruct S; try congruence; cbn; repeat split; auto; try discriminate;
  try (intros ? [= <-]; reflexivity).
  - intros _. now rewrite H0.
  - intros _. now rewrite H0.
Qed.

(** A send on a link whose task is over always fails, and the receiver always gets what was
    left and then the end; a task that has nothing left to wait for does end. *)
Theorem C153_end_is_reported : forall l,
  (l_task l <> Running -> l_senders l = true -> forall m, lstep l (EvSend m) = Some (l, [LSent m false])) /\
  (l_task l <> Running -> l_receiver l = true -> exists l', lstep l EvRecv = Some (l', match l_in l with m :: _ => [LGot m] | [] => [LClosed] end)) /\
  (l_task l = Running -> l_pushes l = [] -> l_out l = [] -> l_up l = false -> l_senders l = false ->
   exists l', lstep l EvElse = Some (l', []) /\ l_task l' = Ended).
Proof.
  intros l. split; [|split].
  - intros T S m. cbn [lstep]. rewrite S. destruct (l_task l); [now elim T|reflexivity..].
  - intros T S. cbn [lstep]. rewrite S. destruct (l_in l), (l_task l); eauto; now elim T.
  - intros T A B C D. cbn [lstep]. rewrite T, A, B, C, D. eexists. split; reflexivity.
Qed.

Example C153_ends_nonvacuous : exists o, orun (in_use "b") [OConsumerPanics; OLink (EvPush {| p_kind := KMessage; p_data := [] |}); OLink EvTake; OListenerEnds; ODropHandle; OTrackerEnds] = Some o /\
  l_task (o_link o) = Panicked /\ o_listener o = false /\ l_senders (o_link o) = false /\ o_tracker o = false.
Proof. eexists. split; [vm_compute; reflexivity|]. repeat split; reflexivity. Qed.
Example C153_nonvacuous :
  (exists o, orun (in_use "b") [ODropHandle; OLink (EvPush (says {| wr_source := "a"; wr_message := chat |})); OLink EvTake; OLink EvRecv; OConsumerPanics; OLink EvDown] = Some o /\
     o_handle o = false /\ o_consumer o = false /\ l_task (o_link o) = Running) /\
  (exists l log, history "b" [EvDropReceiver; EvDropSenders; EvPush (says {| wr_source := "a"; wr_message := MsgAck "c" "x" |}); EvTake] l log /\
     l_task l = Running /\ l_receiver l = false /\ l_senders l = false /\ l_up l = true) /\
  (exists l log, history "b" [EvDropReceiver; EvSend chat; EvPush (says {| wr_source := "a"; wr_message := chat |}); EvTake; EvSend chat] l log /\
     l_task l = Ended /\ log = [LSent chat true; LTook (says {| wr_source := "a"; wr_message := chat |}); LSent chat false]) /\
  (exists l log, history "b" [EvDown; EvDropSenders; EvElse; EvRecv] l log /\ l_task l = Ended /\ log = [LClosed]).
Proof.
  split; [|split; [|split]].
  - eexists. split; [vm_compute; reflexivity|]. repeat split; reflexivity.
  - eexists _, _. split; [vm_compute; reflexivity|]. repeat split; reflexivity.
  - eexists _, _. split; [vm_compute; reflexivity|]. repeat split; reflexivity.
  - eexists _, _. split; [vm_compute; reflexivity|]. repeat split; reflexivity.
Qed.

(** * C154: the loss of the connection *)

(** After the connection is lost every message is accepted and none is published, for ever;
    what was pushed before is still heard, and nothing after it.  No call tells the
    application. *)
Theorem C154_loss_unnoticed_refuted : forall node evs1 evs2 l log l' log',
  history node evs1 l log -> Forall server_push (arrivals evs1) -> l_up l = false -> l_receiver l = true -> l_senders l = true ->
  lrun l log evs2 = Some (l', log') -> ~ In EvDropReceiver evs2 -> ~ In EvDropSenders evs2 ->
  exists new, log' = log ++ new /\ published new = [] /\ refused new = [] /\ ~ In LClosed new /\
  exists later, got new ++ l_in l' = l_in l ++ later /\ heard node (taken new) later /\ taken new ++ l_pushes l' = l_pushes l.
Proof.
  intros node evs1 evs2 l log l' log' H F U RC SD R NR NS. pose proof (linv_history _ _ _ _ H) as I.
  assert (T: l_task l = Running). { eapply C152_survives; eauto. }
  pose proof (li_taken _ _ _ _ I T) as P. rewrite <- P in F. apply Forall_app in F as [_ F].
  destruct (down_run _ _ _ _ _ R U F RC SD T NR NS) as (T' & U' & new & -> & A & B & C & D & E).
  exists new. split; [reflexivity|]. split; [exact A|]. split; [exact B|]. split.
  - clear - R T T' NR RC F U SD NS.
    assert (G: forall evs l log l' log', lrun l log evs = Some (l', log') -> l_task l' = Running -> ~ In LClosed log -> ~ In LClosed log').
    { clear. induction evs as [|ev evs IH]; intros l log l' log'; cbn [lrun].
      - now intros [= <- <-].
      - destruct (lstep l ev) as [[l1 out]|] eqn:S; [|discriminate]. intros R T N. eapply IH; eauto. intros X. apply in_app_or in X as [X|X]; [auto|].
        assert (RN: l_task l <> Running) by (apply lstep_view in S; destruct S; cbn in X; intuition (try discriminate; congruence)).
        assert (RN1: l_task l1 <> Running) by (destruct (C153_end_is_seen _ _ _ _ RN S) as [Q _]; congruence).
        clear - R T RN1. revert l1 log out l' log' R T RN1. induction evs as [|e evs IH]; intros l1 log out l' log'; cbn [lrun].
        + intros [= <- <-]. congruence.
        + destruct (lstep l1 e) as [[l2 o2]|] eqn:S; [|discriminate]. intros R T N.
          destruct (C153_end_is_seen _ _ _ _ N S) as [Q _]. rewrite <- app_assoc in R. eapply IH; eauto. congruence. }
    assert (R0: lrun l [] evs2 = Some (l', new)).
    { clear - R. assert (G: forall evs l log l' log' x, lrun l log evs = Some (l', log') -> lrun l (x ++ log) evs = Some (l', x ++ log')).
      { induction evs as [|ev evs IH]; intros l0 log0 l1 log1 x; cbn [lrun]; [now intros [= <- <-]|].
        destruct (lstep l0 ev) as [[l2 o2]|]; [|discriminate]. rewrite <- app_assoc. apply IH. }
      assert (G2: forall evs l log l' log', lrun l log evs = Some (l', log') -> exists n, log' = log ++ n /\ lrun l [] evs = Some (l', n)).
      { induction evs as [|ev evs IH]; intros l0 log0 l1 log1; cbn [lrun]. { intros [= <- <-]. exists []. now rewrite app_nil_r. }
        destruct (lstep l0 ev) as [[l2 o2]|]; [|discriminate]. intros Q. destruct (IH _ _ _ _ Q) as (n & -> & Q'). exists (o2 ++ n).
        rewrite <- app_assoc. split; [reflexivity|]. apply (G _ _ _ _ _ o2) in Q'. now rewrite app_nil_r in Q'. }
      destruct (G2 _ _ _ _ _ R) as (n & X & Q). apply app_inv_head in X. now subst. }
    eapply G; [exact R0|exact T'|intros []].
  - exists (skipn (length (l_in l)) (got new ++ l_in l')). rewrite <- (li_node _ _ _ _ I). split; [|auto].
    transitivity (firstn (length (l_in l)) (got new ++ l_in l') ++ skipn (length (l_in l)) (got new ++ l_in l')); [symmetry; apply firstn_skipn|]. now rewrite <- D.
Qed.

(** Nor does losing the connection end the task: only with the last sender gone. *)
Theorem C154_task_stays_refuted : forall node evs l log, history node evs l log -> Forall server_push (arrivals evs) ->
  l_receiver l = true -> l_senders l = true -> l_task l = Running.
Proof. intros. eapply C152_survives; eauto. Qed.

Example C154_nonvacuous : exists l log l' log', history "b" [EvPush (says {| wr_source := "a"; wr_message := chat |}); EvDown] l log /\
  l_up l = false /\ l_receiver l = true /\ l_senders l = true /\
  lrun l log [EvSend chat; EvForward false; EvTake; EvRecv; EvSend chat] = Some (l', log') /\
  log' = [LSent chat true; LFailed {| wr_source := "b"; wr_message := chat |}; LTook (says {| wr_source := "a"; wr_message := chat |}); LGot chat; LSent chat true].
Proof. eexists _, _, _, _. split; [vm_compute; reflexivity|]. repeat split; reflexivity. Qed.

(** * C155: the settings of a connection *)

(** Outside cluster mode the first node is the only one contacted, with the password of
    its URL: the password of the settings makes no difference. *)
Theorem C155_password_ignored_refuted : forall login c p, cc_cluster c = false ->
  connect login {| cc_node := cc_node c; cc_channel := cc_channel c; cc_nodes := cc_nodes c; cc_password := p; cc_cluster := cc_cluster c |} = connect login c.
Proof. intros login c p E. unfold connect, get_redis_connection. cbn [cc_cluster cc_nodes]. now rewrite E. Qed.

(** So a server that lets in only those who know the configured password is never reached. *)
Theorem C155_password_needed_refuted : forall c p u rest, cc_cluster c = false -> cc_nodes c = Some u :: rest -> u_password u = None ->
  cc_password c = Some p -> forall login, (forall h q, login h q = true -> q = Some p) -> connect login c = KError.
Proof.
  intros c p u rest E N U P login L. unfold connect, get_redis_connection. rewrite E, N. cbn. rewrite U.
  destruct (login [u_host u] None) eqn:Q; [|reflexivity]. apply L in Q. discriminate.
Qed.

(** Without nodes a cluster connection is refused with an error; outside cluster mode the caller panics. *)
Theorem C155_no_nodes_refuted : forall login c, cc_nodes c = [] -> connect login c = if cc_cluster c then KError else KPanic.
Proof. intros login c N. unfold connect, get_redis_connection. rewrite N. now destruct (cc_cluster c). Qed.

(** Nothing else panics. *)
Theorem C155_no_other_panic : forall login c, connect login c = KPanic -> cc_cluster c = false /\ cc_nodes c = [].
Proof.
  intros login c. unfold connect, get_redis_connection. destruct (cc_cluster c); cbn.
  - destruct (all_urls (cc_nodes c)) as [[|u us]|]; try discriminate. destruct (cc_password c); cbn.
    + destruct (login _ _); discriminate.
    + destruct (u_password u); [destruct (forallb _ _)|]; cbn; try discriminate; destruct (login _ _); discriminate.
  - destruct (cc_nodes c) as [|[u|] us]; [auto| |discriminate]. cbn. destruct (login _ _); [destruct (u_protocol u)|]; discriminate.
Qed.

(** Outside cluster mode there is a link if and only if the first URL is good, says RESP3,
    and its host lets its password in.  The other nodes make no difference. *)
Theorem C155_single_node : forall login c, cc_cluster c = false ->
  (connect login c = KLink <-> exists u rest, cc_nodes c = Some u :: rest /\ u_protocol u = RESP3 /\ login [u_host u] (u_password u) = true).
Proof.
  intros login c E. unfold connect, get_redis_connection. rewrite E. cbn. split.
  - destruct (cc_nodes c) as [|[u|] us]; try discriminate. cbn. destruct (login _ _) eqn:L; [|discriminate]. destruct (u_protocol u) eqn:U; [discriminate|]. intros _. exists u, us. auto.
  - intros (u & us & -> & U & L). cbn. now rewrite L, U.
Qed.

Lemma all_urls_some l us : all_urls l = Some us <-> l = map Some us.
Proof.
  revert us. induction l as [|[u|] l IH]; intros us; cbn.
  - split; [now intros [= <-]|]. now destruct us.
  - destruct (all_urls l) as [vs|].
    + split. { intros [= <-]. cbn. f_equal. now apply IH. } destruct us as [|v us]; [discriminate|]. cbn. intros [= -> Q]. apply IH in Q. congruence.
    + split; [discriminate|]. destruct us as [|v us]; [discriminate|]. cbn. intros [= -> Q]. apply IH in Q. discriminate.
  - split; [discriminate|]. destruct us; discriminate.
Qed.
Lemma same_password_eq a b : same_password a b = true <-> a = b.
Proof. destruct a, b; cbn; rewrite ?String.eqb_eq; intuition congruence. Qed.

(** In cluster mode there is a link if and only if every URL is good and the hosts let in
    the configured password; or without one, the first URL's, which all then share.
    RESP3 is used whatever the URLs say. *)
Theorem C155_cluster : forall login c, cc_cluster c = true ->
  (connect login c = KLink <->
   exists u us, cc_nodes c = map Some (u :: us) /\
   exists p, login (map u_host (u :: us)) p = true /\
   match cc_password c with
   | Some q => p = Some q
   | None => p = u_password u /\ (u_password u <> None -> Forall (fun v => u_password v = u_password u) us)
   end).
Proof.
  intros login c E. unfold connect, get_redis_connection. rewrite E. cbn [negb]. split.
  - destruct (all_urls (cc_nodes c)) as [[|u us]|] eqn:A; try discriminate. apply all_urls_some in A.
    intros K. exists u, us. split; [exact A|]. destruct (cc_password c) as [q|].
    + exists (Some q). cbn [d_hosts d_password d_protocol] in K. destruct (login _ _); [auto|discriminate].
    + destruct (u_password u) as [q|] eqn:P.
      * destruct (forallb _ us) eqn:F; [|discriminate]. exists (Some q). cbn [d_hosts d_password d_protocol] in K.
        destruct (login _ _); [|discriminate]. split; [reflexivity|]. split; [reflexivity|]. intros _.
        rewrite forallb_forall in F. apply Forall_forall. intros v V. now apply same_password_eq, F.
      * exists None. cbn [d_hosts d_password d_protocol] in K. destruct (login _ _); [|discriminate]. split; [reflexivity|]. split; [reflexivity|]. congruence.
  - intros (u & us & N & p & L & Q). assert (A: all_urls (cc_nodes c) = Some (u :: us)) by now apply all_urls_some. rewrite A.
    destruct (cc_password c) as [q|].
    + subst p. cbn [d_hosts d_password d_protocol]. now rewrite L.
    + destruct Q as [-> Q]. destruct (u_password u) as [q|] eqn:P.
      * assert (F: forallb (fun v => same_password (u_password v) (Some q)) us = true).
        { apply forallb_forall. intros v V. apply same_password_eq. specialize (Q ltac:(discriminate)). rewrite Forall_forall in Q. auto. }
        rewrite F. cbn [d_hosts d_password d_protocol]. now rewrite L.
      * cbn [d_hosts d_password d_protocol]. now rewrite L.
Qed.

Definition url (h : string) (pw : option string) (pr : protocol) : option node_url := Some {| u_host := h; u_password := pw; u_protocol := pr |}.
Definition settings (nodes : list (option node_url)) (pw : option string) (cl : bool) : conn_config :=
  {| cc_node := "n"; cc_channel := "c"; cc_nodes := nodes; cc_password := pw; cc_cluster := cl |}.
Definition guarded (h : list string) (q : option string) : bool := same_password q (Some "s3cret").
Example C155_nonvacuous :
  connect guarded (settings [url "h1" None RESP3] (Some "s3cret") false) = KError /\
  connect guarded (settings [url "h1" (Some "s3cret") RESP3; None] None false) = KLink /\
  connect guarded (settings [url "h1" (Some "s3cret") RESP2] None false) = KError /\
  connect guarded (settings [url "h1" None RESP2; url "h2" (Some "x") RESP2] (Some "s3cret") true) = KLink /\
  connect guarded (settings [url "h1" (Some "s3cret") RESP2; url "h2" (Some "x") RESP2] None true) = KError /\
  connect guarded (settings [] (Some "s3cret") false) = KPanic.
Proof. repeat split; reflexivity. Qed.

Print Assumptions C152_hears.
Print Assumptions C152_takes_in_order.
Print Assumptions C152_heard_fun.
Print Assumptions C152_survives.
Print Assumptions C152_says.
Print Assumptions C152_goes_on.
Print Assumptions C152_across.
Print Assumptions C153_no_shutdown_refuted.
Print Assumptions C153_tracker_stays_refuted.
Print Assumptions C153_listener_ends.
Print Assumptions C153_consumer_ends.
Print Assumptions C153_idle_link_refuted.
Print Assumptions C153_what_ends_a_link.
Print Assumptions C153_end_is_seen.
Print Assumptions C153_end_is_reported.
Print Assumptions C154_loss_unnoticed_refuted.
Print Assumptions C154_task_stays_refuted.
Print Assumptions C155_password_ignored_refuted.
Print Assumptions C155_password_needed_refuted.
Print Assumptions C155_no_nodes_refuted.
Print Assumptions C155_no_other_panic.
Print Assumptions C155_single_node.
Print Assumptions C155_cluster.
