(** The whole cluster: what is published is taken by every node, where writes and
    acknowledgements come from, and delivery once the bus has gone quiet. *)
From Verif Require Import Base AckModel AckSpec AckProofs ClusterModel ClusterSpec ClusterTrans ClusterNode ClusterCalls ClusterSafety ClusterDeliver.
Open Scope string_scope.
Local Open Scope list_scope.

Lemma published_app a b : published (a ++ b) = published a ++ published b. Proof. apply flat_map_app. Qed.
Lemma published_own i l : published (map (fun e => (i, e)) l) = flat_map (fun e => match e with NForward w true => [w] | _ => [] end) l.
Proof. induction l as [|e l IH]; cbn; [reflexivity|]. unfold published in IH. now rewrite IH. Qed.

(** Every subscription sees exactly what was published, in that order. *)
Lemma bus_hist c0 c log : creachable c0 c log -> forall i, published log = taken (on_node i log) ++ n_sub (cl_node c i).
Proof.
  intros R. pose proof R as (F & _). revert c log R.
  apply (creachable_ind' c0 (fun c log => forall i, published log = taken (on_node i log) ++ n_sub (cl_node c i))).
  - intros i. destruct (F i) as (name & bus & bcast & cf & ->). reflexivity.
  - intros c log i ev n' l ws _ IH Hi Hs j. cbn [cl_node]. apply nstep_trans in Hs.
    rewrite published_app, published_own, <- (step_ws _ _ _ _ Hs), on_node_app, taken_app. cbn.
    destruct (Nat.eqb_spec j i) as [->|Hne].
    + rewrite on_node_own, (IH i), (step_sub _ _ _ _ Hs), <- !app_assoc. reflexivity.
    + rewrite on_node_other by congruence. rewrite (IH j), app_nil_r, <- app_assoc. reflexivity.
Qed.

Lemma static_hist c0 c log : creachable c0 c log -> cl_size c = cl_size c0 /\
  forall i, n_name (cl_node c i) = n_name (cl_node c0 i) /\ n_bus (cl_node c i) = n_bus (cl_node c0 i) /\
            n_bcast (cl_node c i) = n_bcast (cl_node c0 i) /\ n_cf (cl_node c i) = n_cf (cl_node c0 i).
Proof.
  revert c log. apply (creachable_ind' c0 (fun c _ => cl_size c = cl_size c0 /\
    forall i, n_name (cl_node c i) = n_name (cl_node c0 i) /\ n_bus (cl_node c i) = n_bus (cl_node c0 i) /\
            n_bcast (cl_node c i) = n_bcast (cl_node c0 i) /\ n_cf (cl_node c i) = n_cf (cl_node c0 i))).
  - auto.
  - intros c log i ev n' l ws _ [E IH] Hi Hs. split; [exact E|]. intros j. cbn.
    destruct (Nat.eqb_spec j i) as [->|Hne]; [|apply IH].
    apply nstep_trans, ntrans_static in Hs. destruct Hs as (-> & -> & -> & ->). apply IH.
Qed.

(** Every entry comes from one step of an earlier reachable cluster. *)
Lemma cput c0 c log : creachable c0 c log -> forall pre i e post, log = pre ++ (i, e) :: post ->
  exists c1 log1 n1 out ws o1 o2, creachable c0 c1 log1 /\ (i < cl_size c0)%nat /\ ntrans (cl_node c1 i) n1 out ws /\
    out = o1 ++ e :: o2 /\ pre = log1 ++ map (fun x => (i, x)) o1.
Proof.
  revert c log. apply (creachable_ind' c0 (fun _ log => forall pre i e post, log = pre ++ (i, e) :: post ->
    exists c1 log1 n1 out ws o1 o2, creachable c0 c1 log1 /\ (i < cl_size c0)%nat /\ ntrans (cl_node c1 i) n1 out ws /\
    out = o1 ++ e :: o2 /\ pre = log1 ++ map (fun x => (i, x)) o1)).
  - intros [|] ? ? ? X; discriminate X.
  - intros c log i0 ev n' l ws R IH Hi Hs pre i e post E. apply app_split_cases in E.
    destruct E as [(r & E & _)|(o1 & -> & E)]; [eapply IH; exact E|].
    apply map_eq_app in E. destruct E as (a & b & -> & Ea & Eb). apply map_eq_cons in Eb.
    destruct Eb as (x & b' & -> & Ex & _). inversion Ex; subst.
    exists c, log, n', (a ++ e :: b'), ws, a, b'. split; [exact R|]. split.
    { destruct (static_hist _ _ _ R) as [<- _]. exact Hi. }
    split; [eapply nstep_trans; exact Hs|]. auto.
Qed.

Lemma In_published w log : In w (published log) <-> exists i, In (i, NForward w true) log.
Proof.
  unfold published. rewrite in_flat_map. split.
  - intros ([i e] & Hi & H). cbn in H. destruct e as [| | | | | | | | | | |w0 [|]| | | |]; try (now destruct H).
    destruct H as [<-|[]]. eauto.
  - intros (i & H). exists (i, NForward w true). split; [exact H|now left].
Qed.
Lemma In_given m l : In m (given l) <-> exists w, In (NOut w m) l.
Proof.
  unfold given. rewrite in_flat_map. split.
  - intros (e & He & H). destruct e; try (now destruct H). destruct H as [<-|[]]. eauto.
  - intros (w & H). eexists. split; [exact H|now left].
Qed.
Lemma In_forwarded w l : In w (forwarded l) <-> exists ok, In (NForward w ok) l.
Proof.
  unfold forwarded. rewrite in_flat_map. split.
  - intros (e & He & H). destruct e; try (now destruct H). destruct H as [<-|[]]. eauto.
  - intros (ok & H). eexists. split; [exact H|now left].
Qed.
Lemma In_taken w l : In w (taken l) <-> In (NTake w) l.
Proof.
  unfold taken. rewrite in_flat_map. split.
  - intros (e & He & H). destruct e; try (now destruct H). destruct H as [<-|[]]. exact He.
  - intros H. eexists. split; [exact H|now left].
Qed.
Lemma In_heard m l : In m (heard l) <-> In (NHear m) l.
Proof.
  unfold heard. rewrite in_flat_map. split.
  - intros (e & He & H). destruct e; try (now destruct H). destruct H as [<-|[]]. exact He.
  - intros H. eexists. split; [exact H|now left].
Qed.

Lemma relevant_addressed bus w : relevant bus w = true <-> addressed bus w.
Proof.
  unfold relevant, addressed. destruct (String.eqb_spec (wr_source w) bus) as [E|E].
  - split; [discriminate|intros [X _]; contradiction].
  - destruct (wr_message w) as [m|node id].
    + split; [intros _; split; [exact E|discriminate]|reflexivity].
    + rewrite String.eqb_eq. split.
      * intros ->. split; [exact E|]. intros n i X. inversion X. reflexivity.
      * intros [_ H]. eapply H. reflexivity.
Qed.

(** A forwarded message was given to the bus by the node. *)
Lemma forward_given c0 c log i w ok : creachable c0 c log -> In (i, NForward w ok) log ->
  wr_source w = n_bus (cl_node c0 i) /\ exists o, In (i, NOut o (wr_message w)) log.
Proof.
  intros R H. pose proof (creachable_node _ _ _ R i) as Hh. apply on_node_In in H.
  assert (Hf: In w (forwarded (on_node i log))) by (apply In_forwarded; eauto). split.
  - rewrite (forwarded_source _ _ Hh _ Hf). now destruct (static_hist _ _ _ R) as [_ S]; destruct (S i) as (_ & -> & _).
  - assert (G: In (wr_message w) (given (on_node i log))).
    { rewrite (conserve_out _ _ Hh). apply in_or_app. left. now apply in_map. }
    apply In_given in G. destruct G as (o & G). exists o. now apply on_node_In.
Qed.

(** What a node hears was published by another node. *)
Lemma heard_published c0 c log v m : creachable c0 c log -> In (v, NHear m) log ->
  exists u o, (u < cl_size c0)%nat /\ n_bus (cl_node c0 u) <> n_bus (cl_node c0 v) /\ In (u, NOut o m) log /\
    (forall node id, m = MsgAck node id -> node = n_bus (cl_node c0 v)).
Proof.
  intros R H. pose proof (creachable_node _ _ _ R v) as Hh. destruct (static_hist _ _ _ R) as [_ S].
  apply on_node_In, In_heard in H.
  assert (G: In m (map wr_message (filter (relevant (n_bus (cl_node c v))) (taken (on_node v log))))).
  { rewrite (conserve_in _ _ Hh). apply in_or_app; auto. }
  apply in_map_iff in G. destruct G as (w & <- & G). apply filter_In in G. destruct G as [G Hr].
  apply relevant_addressed in Hr. destruct Hr as [Hr1 Hr2]. destruct (S v) as (_ & Eb & _). rewrite Eb in Hr1, Hr2.
  assert (P: In w (published log)) by (rewrite (bus_hist _ _ _ R v); apply in_or_app; auto).
  apply In_published in P. destruct P as (u & P). destruct (forward_given _ _ _ _ _ _ R P) as [Es (o & Ho)].
  exists u, o. split.
  { apply in_split in P. destruct P as (a & b & P). destruct (cput _ _ _ R _ _ _ _ P) as (? & ? & ? & ? & ? & ? & ? & _ & X & _). exact X. }
  split; [congruence|]. split; [exact Ho|exact Hr2].
Qed.

(** The calls a message on the bus stands for *)
Definition genuine_in (log : list (nat * nlog)) (u : nat) (c id text : string) : Prop :=
  exists k c' inform wait, In (u, NCall k c' id text inform wait) log /\ (c = c' \/ c = id).
Lemma genuine_node u log c id text : genuine (on_node u log) c id text -> genuine_in log u c id text.
Proof. intros (k & c' & i & w & H & E). exists k, c', i, w. split; [now apply on_node_In|exact E]. Qed.

Lemma out_origin c0 c log u o m : creachable c0 c log -> In (u, NOut o (MsgWs m)) log ->
  wm_source m = n_name (cl_node c0 u) /\ genuine_in log u (wm_conn m) (wm_id m) (wm_text m).
Proof.
  intros R H. pose proof (creachable_node _ _ _ R u) as Hh. apply on_node_In in H.
  destruct (out_genuine _ _ Hh _ _ H) as [E G]. destruct (static_hist _ _ _ R) as [_ S]. destruct (S u) as (<- & _).
  split; [exact E|now apply genuine_node].
Qed.

Lemma write_traced c0 c log v w conn text ok : creachable c0 c log -> In (v, NWrite w conn text ok) log ->
  exists u id, genuine_in log u conn id text /\ (w = ByResend -> conn = id).
Proof.
  intros R H. pose proof (creachable_node _ _ _ R v) as Hh. apply on_node_In in H. apply (write_hist _ _ Hh) in H.
  destruct w as [k| |m]; cbn in H.
  - destruct H as (id & i & wt & H). apply on_node_In in H. exists v, id. split; [|discriminate]. exists k, conn, i, wt. auto.
  - destruct H as (k & c' & i & wt & H). apply on_node_In in H. exists v, conn. split; [|auto]. exists k, c', i, wt. auto.
  - destruct H as (-> & -> & H). apply on_node_In in H. apply (heard_published _ _ _ _ _ R) in H.
    destruct H as (u & o & _ & _ & H & _). apply (out_origin _ _ _ _ _ _ R) in H. destruct H as [_ H].
    exists u, (wm_id m). split; [exact H|discriminate].
Qed.

(** A "received" status goes back to a write on another node. *)
Lemma received_traced c0 c log u w id : creachable c0 c log -> In (u, NInbox w (MStatus id Received)) log ->
  exists v m ok, (v < cl_size c0)%nat /\ n_bus (cl_node c0 v) <> n_bus (cl_node c0 u) /\
    In (v, NWrite (ByListener m) (wm_conn m) (wm_text m) ok) log /\ wm_id m = id /\ wm_source m = n_bus (cl_node c0 u) /\
    exists u', (u' < cl_size c0)%nat /\ n_name (cl_node c0 u') = n_bus (cl_node c0 u) /\
      genuine_in log u' (wm_conn m) id (wm_text m).
Proof.
  intros R H. pose proof (creachable_node _ _ _ R u) as Hh. apply on_node_In in H.
  destruct (received_heard _ _ Hh _ _ H) as (node & Hn). apply on_node_In in Hn.
  destruct (heard_published _ _ _ _ _ R Hn) as (v & o & Hv & Hb & Ho & Hnode).
  specialize (Hnode _ _ eq_refl). subst node.
  pose proof (creachable_node _ _ _ R v) as Hhv. apply on_node_In in Ho.
  destruct (ack_after_write _ _ Hhv _ _ _ Ho) as (m & ok & -> & Em & -> & Hw).
  exists v, m, ok. split; [exact Hv|]. split; [exact Hb|]. split; [now apply on_node_In|]. split; [reflexivity|]. split; [auto|].
  destruct (write_hist _ _ Hhv _ _ _ _ Hw) as (_ & _ & Hm). apply on_node_In in Hm.
  destruct (heard_published _ _ _ _ _ R Hm) as (u' & o' & Hu & _ & Ho' & _).
  destruct (out_origin _ _ _ _ _ _ R Ho') as [E G]. exists u'. split; [exact Hu|]. split; [congruence|exact G].
Qed.

Lemma tracked_received c0 c log u id t : creachable c0 c log -> In (u, NWorker (LRecord id Received t)) log ->
  exists w, In (u, NInbox w (MStatus id Received)) log.
Proof.
  intros R H. pose proof (creachable_node _ _ _ R u) as Hh. apply on_node_In in H. apply In_tracker_log in H.
  destruct (record_sent _ _ _ _ _ Hh H) as (w & Hw). exists w. now apply on_node_In.
Qed.
Lemma wait_recorded n l id tx : nhist n l -> In (NWorker (LWait id tx Received)) l -> exists t, In (LRecord id Received t) (tracker_log l).
Proof.
  intros Hh H. pose proof (tracker_reachable _ _ Hh) as Rt. apply In_tracker_log in H. apply in_split in H. destruct H as (a & b & E).
  destruct (wait_spec _ _ _ Rt _ _ _ _ _ E) as [_ [H|[_ H]]]; [|discriminate].
  apply current_recorded in H. destruct H as (t & H). exists t. rewrite E. apply in_or_app; auto.
Qed.
Lemma check_recorded n l id tx : nhist n l -> In (NWorker (LCheck id tx Received)) l -> exists t, In (LRecord id Received t) (tracker_log l).
Proof.
  intros Hh H. pose proof (tracker_reachable _ _ Hh) as Rt. apply In_tracker_log in H. apply in_split in H. destruct H as (a & b & E).
  destruct (check_spec _ _ _ Rt _ _ _ _ _ E) as [H|[_ H]]; [|discriminate].
  apply current_recorded in H. destruct H as (t & H). exists t. rewrite E. apply in_or_app; auto.
Qed.
