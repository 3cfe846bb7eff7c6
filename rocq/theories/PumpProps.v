(** C151: the bounded channels of a node, and how they can stop it. *)
From Verif Require Import Base AckModel AckSpec AckProofs ClusterModel ClusterSpec ClusterTrans ClusterNode ClusterCalls ClusterSafety ClusterDeliver ClusterSettle DeadProofs PumpModel PumpSpec PumpProofs PumpJam PumpReach.
Open Scope string_scope.
Local Open Scope list_scope.

(** The capacities add no behaviour: whatever a cluster with bounded channels does, the
    same cluster without bounds can do too, so that what C34-C36, C62 and C150 say about
    every history holds of these too. *)
Theorem C151_same_histories :
  forall K c0 c log, breachable K c0 c log -> exists c', creachable (unbounded c0) c' log /\ cl_size c' = bc_size c.
Proof. intros K c0 c log R. destruct (breach_sim _ _ _ _ R) as (cl & R' & S & _). eauto. Qed.

(** No channel ever holds more than its capacity. *)
Theorem C151_within_capacity :
  forall K c0 c log i, breachable K c0 c log -> within K (bc_node c i).
Proof. intros K c0 c log i R. eapply within_reach; eauto. Qed.

(** When the tasks of the nodes can do nothing more with what they have been given,
    every node is at rest or jammed: there is no other way to get stuck. *)
Theorem C151_stuck_only_in_a_jam :
  forall K c0 c log, sized K -> breachable K c0 c log ->
  (forall i ev, binternal ev = true -> bcstep K c i ev = None) ->
  forall i, (i < bc_size c)%nat -> at_rest (bc_node c i) \/ jammed K (bc_node c i).
Proof.
  intros K c0 c log HK R Hn. destruct (cluster_can K c0 c log HK R) as [D|(i & ev & He & Hs)]; [exact D|].
  exfalso. apply Hs. now apply Hn.
Qed.

(** ... and however they are scheduled, they get there: there is no endless run of such
    steps, and each run can be continued until every node is at rest or jammed. *)
Theorem C151_comes_to_rest :
  forall K c0 c log, sized K -> breachable K c0 c log -> exists bound,
  forall evs c1 log1, Forall (fun e => binternal (snd e) = true) evs -> bcrun K c log evs = Some (c1, log1) ->
  (length evs <= bound)%nat /\
  exists more c2 log2, Forall (fun e => binternal (snd e) = true) more /\ bcrun K c1 log1 more = Some (c2, log2) /\
    forall i, (i < bc_size c2)%nat -> at_rest (bc_node c2 i) \/ jammed K (bc_node c2 i).
Proof.
  intros K c0 c log HK R. exists (bweight c). intros evs c1 log1 F H. split.
  - pose proof (bcrun_weight K evs _ _ _ _ F H). lia.
  - apply (comes_to_rest K c0 HK (bweight c1)); [lia|]. eapply breach_run; eauto.
Qed.

(** The same for each node alone and for all its tasks: calls, the tracker's rounds and the
    task that acts on them as well.  Only in a jam does one of them wait for room for ever. *)
Theorem C151_no_other_task_stops :
  forall K c0 c log i, sized K -> breachable K c0 c log -> (i < bc_size c)%nat ->
  (forall ev, bwork ev = true -> bcstep K c i ev = None) -> all_rest (bc_node c i) \/ jammed K (bc_node c i).
Proof.
  intros K c0 c log i HK R Hi Hn. destruct (cluster_work K c0 c log i HK R Hi) as [D|[D|(ev & He & Hs)]]; [auto|auto|].
  exfalso. apply Hs. now apply Hn.
Qed.

(** A node is jammed only after it has been given as many messages for the others as the
    outgoing channel holds, and has taken two more than the incoming channel holds. *)
Theorem C151_jam_needs_full_channels :
  forall K c0 c log u, breachable K c0 c log -> jammed K (bc_node c u) ->
  (cap_out K <= length (given (on_node u log)))%nat /\ (cap_in K + 2 <= length (taken (on_node u log)))%nat.
Proof.
  intros K c0 c log u R ((m & Hm) & Hi & (x & Hx) & Hb & Ho). pose proof (breach_node _ _ _ _ u R) as Hh. split.
  - rewrite (conserve_out _ _ Hh), app_length. cbn [abs set_in n_out]. lia.
  - pose proof (conserve_in _ _ Hh) as C. pose proof (listener_hist _ _ Hh) as L. unfold listener_inv in L. cbn [abs set_in n_listener] in L.
    rewrite Hx in L. destruct L as [L _].
    assert (H1: (1 <= length (heard (on_node u log)))%nat).
    { assert (In (MsgWs x) (heard (on_node u log))) by (apply in_flat_map; exists (NHear (MsgWs x)); split; [exact L|now left]).
      destruct (heard (on_node u log)); [contradiction|cbn; lia]. }
    apply (f_equal (@length bus_message)) in C. rewrite map_length, app_length in C. cbn [abs set_in n_in n_bus] in C.
    rewrite app_length in C. unfold hand in C. rewrite Hm in C. cbn [length] in C.
    assert (FL: forall (f : wrapped -> bool) l, (length (filter f l) <= length l)%nat).
    { intros f l. induction l as [|w l IH]; cbn; [lia|]. destruct (f w); cbn; lia. }
    specialize (FL (relevant (n_bus (b_node (bc_node c u)))) (taken (on_node u log))). lia.
Qed.

(** The full property, "a node never stops processing what the bus brings and what it is
    given for the bus", is false.  With channels of any size two nodes get there by
    nothing but successful steps: one sends two messages more than the incoming channel
    holds to a connection of the other, which sends as many as the outgoing channel
    holds. *)
Theorem C151_jam_reached_refuted :
  forall K cf, sized K -> exists c0 c log, breachable K c0 c log /\ bc_size c0 = 2%nat /\ (forall i, n_cf (b_node (bc_node c0 i)) = cf) /\
  jammed K (bc_node c 0) /\ (forall e, In e log -> went_right (snd e) = true) /\
  length (filter is_call (on_node 0 log)) = cap_out K /\ length (filter is_call (on_node 1 log)) = (cap_in K + 2)%nat.
Proof.
  intros K cf HK. destruct (reaches_jam K cf HK) as (c & log & R & J & F & C0 & C1). exists (two_nodes cf), c, log.
  split; [exact R|]. split; [reflexivity|]. split; [intros i; cbn; now destruct (Nat.eqb i 0)|]. auto.
Qed.

(** With the capacities of the code: not before it has been given 1024 messages for the
    others and has taken 1026 from them. *)
Theorem C151_no_early_jam :
  forall c0 c log u, breachable code_caps c0 c log ->
  (length (given (on_node u log)) < 1024)%nat \/ (length (taken (on_node u log)) < 1026)%nat -> ~ jammed code_caps (bc_node c u).
Proof.
  intros c0 c log u R L J. destruct (C151_jam_needs_full_channels _ _ _ _ _ R J) as [A B]. unfold code_caps in A, B. cbn [cap_out cap_in] in A, B. lia.
Qed.

(** ... and after 1024 calls on one node and 1026 on the other it can be. *)
Theorem C151_code_jam_reached_refuted :
  forall cf, exists c0 c log, breachable code_caps c0 c log /\ bc_size c0 = 2%nat /\ (forall i, n_cf (b_node (bc_node c0 i)) = cf) /\
  jammed code_caps (bc_node c 0) /\ (forall e, In e log -> went_right (snd e) = true) /\
  length (filter is_call (on_node 0 log)) = 1024%nat /\ length (filter is_call (on_node 1 log)) = 1026%nat.
Proof.
  intros cf. assert (HK: sized code_caps) by (unfold sized, code_caps; cbn [cap_out cap_in cap_ack cap_act]; lia).
  destruct (C151_jam_reached_refuted code_caps cf HK) as (c0 & c & log & R & S & F & J & W & A & B). exists c0, c, log.
  split; [exact R|]. split; [exact S|]. split; [exact F|]. split; [exact J|]. split; [exact W|]. split.
  - etransitivity; [exact A|]. reflexivity.
  - etransitivity; [exact B|]. reflexivity.
Qed.

(** Once jammed, the node stays jammed whatever anyone does: it publishes, takes, hears
    and delivers nothing more from or to the other nodes, and a call that did not find
    its connection on the node and has not handed its message over never returns. *)
Theorem C151_jam_forever_refuted :
  forall K c0 c log u evs c' new, breachable K c0 c log -> jammed K (bc_node c u) ->
  bcrun K c log evs = Some (c', log ++ new) ->
  jammed K (bc_node c' u) /\ (forall e, In (u, e) new -> bus_work e = false) /\
  (forall k x, In (u, NFound (ByCall k) x false) (log ++ new) -> (forall m, ~ In (u, NOut (ByCall k) m) log) ->
     forall r, ~ In (u, NReturn k r) new).
Proof.
  intros K c0 c log u evs c' new R J H. destruct (jam_run _ _ _ _ _ _ _ _ R J H) as (J' & I & N). split; [exact J'|]. split; [exact I|].
  intros k x Hf Ho r Hr. destruct (N _ _ Hr) as [(y & Hy)|(m & Hm)]; [|exact (Ho _ Hm)].
  pose proof (breach_node _ _ _ _ u (breach_run _ _ _ _ _ _ _ R H)) as Hh.
  apply (found_once _ _ k y x Hh); now apply on_node_In.
Qed.

(** Channels for one message each: the whole history, and what follows it.  Node 0 goes
    on taking calls, and a call for a connection elsewhere comes as far as the broadcaster. *)
Definition tiny : caps := {| cap_out := 1; cap_in := 1; cap_ack := 1; cap_act := 1 |}.
Definition cf151 : ack_config := {| cf_timeout := 10; cf_max := 2 |}.
Definition brun_of (evs : list (nat * bevent)) : bcluster * list (nat * nlog) :=
  match bcrun tiny (two_nodes cf151) [] evs with Some p => p | None => (two_nodes cf151, []) end.
Definition ran (evs : list (nat * bevent)) : bool := match bcrun tiny (two_nodes cf151) [] evs with Some _ => true | None => false end.
Definition remote_call (u k : nat) (conn id : string) : list (nat * bevent) :=
  map (pair u) [BEv (ECall conn id "hello" [] false); BEv (EJob k true); BEv (EJob k true); BEv (EWorkerRecv 0%N); BEv (EJob k true)].
Definition jam_evs : list (nat * bevent) :=
  [(0, BEv EStart); (0, BEv (EAdd "x")); (1, BEv EStart)] ++
  remote_call 1 0 "x" "m0" ++ [(1, BEv (EForward true))] ++ remote_call 1 1 "x" "m1" ++ [(1, BEv (EForward true))] ++
  remote_call 1 2 "x" "m2" ++ [(1, BEv (EForward true))] ++
  map (pair 0) [BTake; BPush; BEv (EListen true); BEv (EWorkerRecv 0%N); BEv (EListen true); BEv (EListen true); BTake; BPush; BTake] ++
  remote_call 0 0 "y" "n0".
Definition after_jam : list (nat * bevent) :=
  [(0, BEv (ECall "y" "n1" "hello" [] true)); (0, BEv (EJob 1 true)); (0, BEv (EJob 1 true)); (0, BEv (EWorkerRecv 1%N));
   (0, BEv (ECall "x" "n2" "hello" [] false)); (0, BEv (EJob 2 true)); (0, BEv (EJob 2 true)); (1, BTake)].
Lemma brun_more a b : ran (a ++ b) = true ->
  bcrun tiny (fst (brun_of a)) (snd (brun_of a)) b =
  Some (fst (brun_of (a ++ b)), snd (brun_of a) ++ skipn (length (snd (brun_of a))) (snd (brun_of (a ++ b)))).
Proof.
  unfold ran, brun_of. rewrite bcrun_app. destruct (bcrun tiny (two_nodes cf151) [] a) as [[c l]|]; [|discriminate]. cbn [fst snd].
  destruct (bcrun tiny c l b) as [[c' l']|] eqn:E; [|discriminate]. intros _. destruct (bcrun_log _ _ _ _ _ _ E) as (new & ->). cbn [fst snd].
  now rewrite skipn_app, skipn_all, Nat.sub_diag.
Qed.
Lemma brun_reach evs : ran evs = true -> breachable tiny (two_nodes cf151) (fst (brun_of evs)) (snd (brun_of evs)).
Proof.
  unfold ran, brun_of. intros H. split; [apply two_fresh|]. exists evs.
  destruct (bcrun tiny (two_nodes cf151) [] evs) as [[c l]|]; [reflexivity|discriminate].
Qed.
Example C151_nonvacuous :
  let c := fst (brun_of jam_evs) in let log := snd (brun_of jam_evs) in
  sized tiny /\ sized code_caps /\ breachable tiny (two_nodes cf151) c log /\ jammed tiny (bc_node c 0) /\
  exists c' new, bcrun tiny c log after_jam = Some (c', log ++ new) /\
    In (0, NFound (ByCall 1) "y" false) new /\ (forall m, ~ In (0, NOut (ByCall 1) m) log) /\ In (0, NReturn 2 RSent) new.
Proof.
  cbv zeta. split; [unfold sized; cbn; lia|]. split; [unfold sized, code_caps; cbn [cap_out cap_in cap_ack cap_act]; lia|].
  split; [apply brun_reach; vm_compute; reflexivity|]. split.
  - split; [eexists; vm_compute; reflexivity|]. split; [vm_compute; lia|]. split; [eexists; vm_compute; reflexivity|].
    split; [vm_compute; reflexivity|]. vm_compute; lia.
  - exists (fst (brun_of (jam_evs ++ after_jam))), (skipn (length (snd (brun_of jam_evs))) (snd (brun_of (jam_evs ++ after_jam)))).
    split; [apply brun_more; vm_compute; reflexivity|]. split; [vm_compute; intuition|]. split; [|vm_compute; intuition].
    intros m H. assert (Q: forallb (fun e => match e with (0, NOut (ByCall 1) _) => false | _ => true end) (snd (brun_of jam_evs)) = true) by (vm_compute; reflexivity).
    rewrite forallb_forall in Q. apply Q in H. discriminate H.
Qed.
(** In this state node 0 can do nothing with what it has, while a message to a node that
    answers it in time leaves every node at rest. *)
Definition calm_evs : list (nat * bevent) :=
  [(0, BEv EStart); (0, BEv (EAdd "x")); (1, BEv EStart)] ++ remote_call 1 0 "x" "m0" ++ [(1, BEv (EForward true))] ++
  map (pair 0) [BTake; BPush; BEv (EListen true); BEv (EWorkerRecv 0%N); BEv (EListen true); BEv (EListen true); BEv (EListen true); BEv (EForward true); BTake] ++
  map (pair 1) [BTake; BTake; BPush; BEv (EListen true); BEv (EWorkerRecv 1%N)].
Lemma no_step {A} (o : option A) : (match o with None => true | Some _ => false end) = true -> o = None.
Proof. destruct o; [discriminate|reflexivity]. Qed.
Example C151_stuck_nonvacuous :
  (forall ev, binternal ev = true -> bcstep tiny (fst (brun_of jam_evs)) 0 ev = None) /\
  breachable tiny (two_nodes cf151) (fst (brun_of calm_evs)) (snd (brun_of calm_evs)) /\
  (forall i ev, binternal ev = true -> bcstep tiny (fst (brun_of calm_evs)) i ev = None) /\
  at_rest (bc_node (fst (brun_of calm_evs)) 0) /\ at_rest (bc_node (fst (brun_of calm_evs)) 1).
Proof.
  split; [intros [[| | | | |now| |[]|[]|[]|]| |] H; try discriminate H; apply no_step; vm_compute; reflexivity|].
  split; [apply brun_reach; vm_compute; reflexivity|]. split.
  - intros [|[|i]] [[| | | | |now| |[]|[]|[]|]| |] H; try discriminate H; apply no_step; vm_compute; reflexivity.
  - unfold at_rest. split; vm_compute; auto 10.
Qed.

Print Assumptions C151_same_histories.
Print Assumptions C151_within_capacity.
Print Assumptions C151_stuck_only_in_a_jam.
Print Assumptions C151_comes_to_rest.
Print Assumptions C151_no_other_task_stops.
Print Assumptions C151_no_early_jam.
Print Assumptions C151_code_jam_reached_refuted.
Print Assumptions C151_jam_needs_full_channels.
Print Assumptions C151_jam_reached_refuted.
Print Assumptions C151_jam_forever_refuted.
