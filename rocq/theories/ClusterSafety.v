(** Where everything on a node comes from. *)
From Verif Require Import Base AckModel AckSpec AckProofs ClusterModel ClusterSpec ClusterTrans ClusterNode ClusterCalls.
Open Scope string_scope.
Local Open Scope list_scope.

(** A call with this message id and text was made. *)
Definition pend (l : list nlog) (id text : string) : Prop :=
  exists k c inform wait, In (NCall k c id text inform wait) l.
Lemma pend_app l out id text : pend l id text -> pend (l ++ out) id text.
Proof. intros (k & c & i & w & H). exists k, c, i, w. apply in_or_app; auto. Qed.

Lemma filter_head {A} (f : A -> bool) l x r : filter f l = x :: r -> In x l.
Proof. intros H. eapply (proj1 (filter_In f x l)). rewrite H. now left. Qed.

Lemma job_called n l k j : nhist n l -> nth_error (n_jobs n) k = Some j ->
  In (NCall k (j_conn j) (j_id j) (j_text j) (j_inform j) (j_wait j)) l.
Proof.
  intros Hh Hj. destruct (calls_hist n l Hh) as [IJ _]. apply IJ in Hj.
  destruct Hj as (rec & reg & _ & _ & _ & H). cbn zeta in H.
  destruct (j_phase j).
  - destruct H as [H _]. eapply filter_head; exact H.
  - eapply filter_head; exact H.
  - destruct H as [H _]. eapply filter_head; exact H.
  - destruct H as [H _]. eapply filter_head; exact H.
  - destruct H as [H _]. eapply filter_head; exact H.
  - destruct H as [H _]. eapply filter_head; exact H.
  - remember (filter (of_call k) l) as t eqn:Et. symmetry in Et. destruct H; eapply filter_head; exact Et.
Qed.

Lemma In_to_tracker m l : In m (to_tracker l) <-> exists w, In (NInbox w m) l.
Proof.
  unfold to_tracker. rewrite in_flat_map. split.
  - intros (e & He & Hm). destruct e; cbn in Hm; try (now destruct Hm). destruct Hm as [<-|[]]. eauto.
  - intros (w & H). exists (NInbox w m). split; [exact H|now left].
Qed.
Lemma In_tracker_log e l : In e (tracker_log l) <-> In (NWorker e) l.
Proof.
  unfold tracker_log. rewrite in_flat_map. split.
  - intros (x & Hx & He). destruct x; cbn in He; try (now destruct He). destruct He as [<-|[]]. exact Hx.
  - intros H. exists (NWorker e). split; [exact H|now left].
Qed.
Lemma In_statuses id st ms : In (id, st) (statuses ms) <-> In (MStatus id st) ms.
Proof.
  unfold statuses. rewrite in_flat_map. split.
  - intros (m & Hm & H). destruct m; cbn in H; try (now destruct H). destruct H as [H|[]]. inversion H; subst. exact Hm.
  - intros H. eexists. split; [exact H|]. now left.
Qed.
Lemma In_records id st l : In (id, st) (records l) <-> exists t, In (LRecord id st t) l.
Proof.
  unfold records. rewrite in_flat_map. split.
  - intros (m & Hm & H). destruct m; cbn in H; try (now destruct H). destruct H as [H|[]]. inversion H; subst. eauto.
  - intros (t & H). eexists. split; [exact H|]. now left.
Qed.

(** A recorded status was sent to the tracker. *)
Lemma record_sent n l id st t : nhist n l -> In (LRecord id st t) (tracker_log l) -> exists w, In (NInbox w (MStatus id st)) l.
Proof.
  intros Hh H. apply In_to_tracker, In_statuses. rewrite (conserve_statuses n l Hh). apply in_or_app. left.
  apply In_records. eauto.
Qed.

(** A resend is addressed to the message id and repeats a recorded send. *)
Lemma resend_action cf w log c id m cl : reachable cf w log -> In (LAction (Resend c id m cl)) log ->
  c = id /\ exists t, In (LRecord id (Pending m cl) t) log.
Proof.
  intros R H. destruct (action_decided cf w log R _ H) as (t & Ht). apply in_split in Ht. destruct Ht as (pre & post & E).
  destruct (decide_entry cf w log R _ _ _ _ E) as (-> & Hc & _). split; [reflexivity|].
  apply current_recorded in Hc. destruct Hc as (t0 & Hc). exists t0. rewrite E. apply in_or_app. now left.
Qed.

Lemma in_returned e l k j : In e (l ++ returned k j) -> In e l \/ exists r, e = NReturn k r.
Proof.
  intros H. apply in_app_or in H. destruct H as [H|H]; [auto|]. unfold returned in H.
  destruct (j_phase j); cbn in H; try (now destruct H). destruct H as [<-|[]]. eauto.
Qed.
Ltac split_log H :=
  try (apply in_returned in H; destruct H as [H|(? & H)]; [|discriminate H]);
  try (apply in_map_iff in H; destruct H as (? & H & _); discriminate H);
  cbn in H; try (intuition discriminate; fail).

Definition resend_inv (n : node) (l : list nlog) : Prop :=
  (forall w id m cl, In (NInbox w (MStatus id (Pending m cl))) l -> pend l id m) /\
  (forall c id m inform, In (Resend c id m inform) (n_actions n) -> c = id /\ pend l id m) /\
  (forall j, n_consumer n = CSend j -> j_conn j = j_id j /\ pend l (j_id j) (j_text j) /\ j_wait j = false /\ j_phase j <> PRegister).

Lemma strans_noreg n w tx j sn p l : strans n w tx j sn p l -> j_wait j = false -> p <> PRegister.
Proof. intros S Hw. destruct S; try discriminate. rewrite Hw. discriminate. Qed.

Lemma step_inbox n n' out ws : ntrans n n' out ws -> forall w id m cl, In (NInbox w (MStatus id (Pending m cl))) out ->
  (exists k j, nth_error (n_jobs n) k = Some j /\ id = j_id j /\ m = j_text j) \/
  (exists j, n_consumer n = CSend j /\ id = j_id j /\ m = j_text j).
Proof.
  intros H. tcases H; intros ww id0 m0 cl0 Hi;
    split_log Hi.
  - destruct Hi as [Hi|[]]. inversion Hi; subst. left. eauto.
  - destruct Hi as [Hi|[]]. inversion Hi; subst. right. eauto.
Qed.

Lemma resend_hist n l : nhist n l -> resend_inv n l.
Proof.
  induction 1 as [name bus bcast cf | n l n' out ws Hh IH Ht | n l ws _ IH]; [|destruct IH as (I1 & I2 & I3)|exact IH].
  { split; [intros w id m cl []|]. split; [intros c id m i []|intros j H; discriminate]. }
  assert (Hh': nhist n' (l ++ out)) by (eapply nh_step; eauto).
  assert (N1: forall w id m cl, In (NInbox w (MStatus id (Pending m cl))) (l ++ out) -> pend (l ++ out) id m).
  { intros w id m cl Hi. apply in_app_or in Hi. apply pend_app. destruct Hi as [Hi|Hi]; [eauto|].
    destruct (step_inbox _ _ _ _ Ht _ _ _ _ Hi) as [(k & j & Hj & -> & ->)|(j & Hj & -> & ->)].
    - apply (job_called n l k j Hh) in Hj. unfold pend. eauto.
    - apply I3 in Hj. tauto. }
  split; [exact N1|]. split.
  - assert (A: n_actions n' = n_actions n \/ (exists a, n_actions n' = n_actions n ++ [a] /\ In (NWorker (LAction a)) out) \/
             (exists a, n_actions n = a :: n_actions n')).
    { tcases Ht; cbn; auto.
      - right. left. exists a. split; [reflexivity|now left].
      - right. right. eauto.
      - right. right. eauto. }
    intros c id m inform Hi. destruct A as [A|[(a & A & Ha)|(a & A)]].
    + rewrite A in Hi. apply I2 in Hi. destruct Hi. split; [assumption|now apply pend_app].
    + rewrite A in Hi. apply in_app_or in Hi. destruct Hi as [Hi|[Hi|[]]]; [|subst a].
      * apply I2 in Hi. destruct Hi. split; [assumption|now apply pend_app].
      * pose proof (tracker_reachable _ _ Hh') as R.
        destruct (resend_action _ _ _ c id m inform R) as (-> & t & Ht').
        { apply In_tracker_log. apply in_or_app; auto. }
        split; [reflexivity|]. destruct (record_sent _ _ _ _ _ Hh' Ht') as (w & Hw). eauto.
    + destruct (I2 c id m inform) as [-> P]; [rewrite A; now right|]. split; [reflexivity|now apply pend_app].
  - assert (C: n_consumer n' = n_consumer n \/ (forall j, n_consumer n' <> CSend j) \/
      (exists c id m inform, In (Resend c id m inform) (n_actions n) /\ n_consumer n' = CSend (resend_job c id m inform)) \/
      (exists j sn p l0, n_consumer n = CSend j /\ strans n ByResend 0 j sn p l0 /\ n_consumer n' = if is_done p then CIdle else CSend (with_phase j p))).
    { destruct Ht; cbn; auto; try (right; left; discriminate).
      - left. destruct H0; reflexivity.
      - right. right. left. exists c, id, m, inform. rewrite H1. split; [now left|reflexivity].
      - right. right. right. exists j, sn, p, l0. auto.
      - right. left. destruct ok; discriminate. }
    intros j' Hj'. destruct C as [C|[C|[(c & id & m & inform & Ha & C)|(j & sn & p & l0 & Hc & S & C)]]].
    + rewrite C in Hj'. apply I3 in Hj'. destruct Hj' as (A & B & D). split; [assumption|]. split; [now apply pend_app|assumption].
    + congruence.
    + rewrite C in Hj'. inversion Hj'; subst j'. apply I2 in Ha. destruct Ha as [-> P]. cbn. split; [reflexivity|].
      split; [now apply pend_app|]. split; [reflexivity|discriminate].
    + rewrite C in Hj'. destruct (is_done p); [discriminate|]. inversion Hj'; subst j'. apply I3 in Hc.
      destruct Hc as (A & B & D & E). cbn. split; [assumption|]. split; [now apply pend_app|]. split; [assumption|].
      eapply strans_noreg; eauto.
Qed.

(** Published messages come from calls. *)
Definition genuine (l : list nlog) (c id text : string) : Prop :=
  exists k c' inform wait, In (NCall k c' id text inform wait) l /\ (c = c' \/ c = id).
Lemma genuine_app l out c id text : genuine l c id text -> genuine (l ++ out) c id text.
Proof. intros (k & c' & i & w & H & E). exists k, c', i, w. split; [apply in_or_app; auto|assumption]. Qed.

Lemma step_out_ws n n' out ws : ntrans n n' out ws -> forall w m, In (NOut w (MsgWs m)) out ->
  (exists k j, nth_error (n_jobs n) k = Some j /\ m = ws_of n j) \/ (exists j, n_consumer n = CSend j /\ m = ws_of n j).
Proof.
  intros H. tcases H; intros ww m0 Hi;
    split_log Hi.
  - destruct Hi as [Hi|[]]. inversion Hi; subst. left. eauto.
  - destruct Hi as [Hi|[]]. inversion Hi; subst. right. eauto.
Qed.

Lemma out_genuine n l : nhist n l -> forall w m, In (NOut w (MsgWs m)) l ->
  wm_source m = n_name n /\ genuine l (wm_conn m) (wm_id m) (wm_text m).
Proof.
  induction 1 as [name bus bcast cf | n l n' out ws Hh IH Ht | n l ws _ IH]; [intros w m []| |exact IH].
  intros w m Hi. destruct (ntrans_static _ _ _ _ Ht) as (-> & _). apply in_app_or in Hi. destruct Hi as [Hi|Hi].
  - apply IH in Hi. destruct Hi. split; [assumption|now apply genuine_app].
  - destruct (step_out_ws _ _ _ _ Ht _ _ Hi) as [(k & j & Hj & ->)|(j & Hj & ->)]; (split; [reflexivity|]); apply genuine_app; cbn.
    + apply (job_called n l k j Hh) in Hj. exists k, (j_conn j), (j_inform j), (j_wait j). auto.
    + destruct (resend_hist n l Hh) as (_ & _ & I3). apply I3 in Hj. destruct Hj as (E & (k & c & i & wt & P) & _).
      exists k, c, i, wt. auto.
Qed.

(** Socket writes come from calls, resends or heard messages. *)
Definition write_origin (l : list nlog) (w : who) (c t : string) : Prop :=
  match w with
  | ByCall k => exists id inform wait, In (NCall k c id t inform wait) l
  | ByResend => pend l c t
  | ByListener m => c = wm_conn m /\ t = wm_text m /\ In (NHear (MsgWs m)) l
  end.

Definition listener_inv (n : node) (l : list nlog) : Prop :=
  match n_listener n with
  | LIdle => True
  | LChecking m | LLookup m | LDeliver m => In (NHear (MsgWs m)) l
  | LAck m => In (NHear (MsgWs m)) l /\ exists ok, In (NWrite (ByListener m) (wm_conn m) (wm_text m) ok) l
  end.

Lemma listener_hist n l : nhist n l -> listener_inv n l.
Proof.
  induction 1 as [name bus bcast cf | n l n' out ws Hh IH Ht | n l ws _ IH]; [exact I| |exact IH].
  assert (Same: n_listener n' = n_listener n -> listener_inv n' (l ++ out)).
  { intros E. unfold listener_inv in *. rewrite E. destruct (n_listener n); auto; try (apply in_or_app; now left).
    destruct IH as [A (ok & B)]. split; [apply in_or_app; auto|]. exists ok. apply in_or_app; auto. }
  tcases Ht; try (apply Same; reflexivity); unfold listener_inv in *; cbn; auto;
    try (match goal with E : n_listener n = _ |- _ => rewrite E in IH end); try (apply in_or_app; auto; fail).
  - apply in_or_app. right. now left.
  - apply in_or_app. right. now left.
  - split; [apply in_or_app; now left|]. exists ok. apply in_or_app. right. now left.
Qed.

Lemma step_write n n' out ws : ntrans n n' out ws -> forall w c t ok, In (NWrite w c t ok) out ->
  match w with
  | ByCall k => exists j, nth_error (n_jobs n) k = Some j /\ c = j_conn j /\ t = j_text j
  | ByResend => exists j, n_consumer n = CSend j /\ c = j_conn j /\ t = j_text j
  | ByListener m => n_listener n = LDeliver m /\ c = wm_conn m /\ t = wm_text m
  end.
Proof.
  intros H. tcases H; intros ww c0 t0 ok0 Hi;
    split_log Hi;
    destruct Hi as [Hi|[]]; inversion Hi; subst; eauto.
Qed.

Lemma write_hist n l : nhist n l -> forall w c t ok, In (NWrite w c t ok) l -> write_origin l w c t.
Proof.
  induction 1 as [name bus bcast cf | n l n' out ws Hh IH Ht | n l ws _ IH]; [intros w c t ok []| |exact IH].
  intros w c t ok Hi. apply in_app_or in Hi. destruct Hi as [Hi|Hi].
  - apply IH in Hi. destruct w; cbn in *.
    + destruct Hi as (id & i & wt & Hi). exists id, i, wt. apply in_or_app; auto.
    + now apply pend_app.
    + destruct Hi as (A & B & C). split; [assumption|]. split; [assumption|]. apply in_or_app; auto.
  - apply (step_write _ _ _ _ Ht) in Hi. destruct w; cbn.
    + destruct Hi as (j & Hj & -> & ->). apply (job_called n l k j Hh) in Hj. exists (j_id j), (j_inform j), (j_wait j). apply in_or_app; auto.
    + destruct Hi as (j & Hj & -> & ->). destruct (resend_hist n l Hh) as (_ & _ & I3). apply I3 in Hj.
      destruct Hj as (-> & P & _). now apply pend_app.
    + destruct Hi as (El & -> & ->). split; [reflexivity|]. split; [reflexivity|].
      pose proof (listener_hist n l Hh) as LI. unfold listener_inv in LI. rewrite El in LI. apply in_or_app; auto.
Qed.

(** Acknowledgements follow a write. *)
Lemma step_out_ack n n' out ws : ntrans n n' out ws -> forall w node id, In (NOut w (MsgAck node id)) out ->
  exists m, w = ByListener m /\ n_listener n = LAck m /\ node = wm_source m /\ id = wm_id m.
Proof.
  intros H. tcases H; intros ww node0 id0 Hi;
    split_log Hi;
    destruct Hi as [Hi|[]]; inversion Hi; subst; eauto.
Qed.

Lemma ack_after_write n l : nhist n l -> forall w node id, In (NOut w (MsgAck node id)) l ->
  exists m ok, w = ByListener m /\ node = wm_source m /\ id = wm_id m /\ In (NWrite (ByListener m) (wm_conn m) (wm_text m) ok) l.
Proof.
  induction 1 as [name bus bcast cf | n l n' out ws Hh IH Ht | n l ws _ IH]; [intros w node id []| |exact IH].
  intros w node id Hi. apply in_app_or in Hi. destruct Hi as [Hi|Hi].
  - apply IH in Hi. destruct Hi as (m & ok & A & B & C & D). exists m, ok. repeat (split; [assumption|]). apply in_or_app; auto.
  - destruct (step_out_ack _ _ _ _ Ht _ _ _ Hi) as (m & -> & El & -> & ->).
    pose proof (listener_hist n l Hh) as LI. unfold listener_inv in LI. rewrite El in LI. destruct LI as [_ (ok & Hw)].
    exists m, ok. repeat (split; [reflexivity|]). apply in_or_app; auto.
Qed.

(** "Received" is only recorded after an acknowledgement was heard. *)
Lemma received_heard n l : nhist n l -> forall w id, In (NInbox w (MStatus id Received)) l -> exists node, In (NHear (MsgAck node id)) l.
Proof.
  induction 1 as [name bus bcast cf | n l n' out ws Hh IH Ht | n l ws _ IH]; [intros w id []| |exact IH].
  intros w id Hi. apply in_app_or in Hi. destruct Hi as [Hi|Hi].
  - apply IH in Hi. destruct Hi as (node & Hi). exists node. apply in_or_app; auto.
  - assert (G: exists node, In (NHear (MsgAck node id)) out).
    { tcases Ht; split_log Hi.
      destruct Hi as [Hi|[Hi|[]]]; [discriminate|]. inversion Hi; subst. exists node. now left. }
    destruct G as (node & G). exists node. apply in_or_app; auto.
Qed.
