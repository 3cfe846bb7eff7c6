(** Properties of the queue consumer *)
From Verif Require Import Base SqsModel SqsSpec SqsProofs.
Local Open Scope list_scope.

Section Config.
Variable c : config.
Variable x : ext_config.
Variable registered : bool.
Notation exec := (exec c x registered).

(** C28: a delete request is for exactly the messages of a batch that was received and whose
    handling has ended, with deletion configured and with success unless failed messages are
    to be deleted too; the batch has no other one. *)
Theorem C28_delete a b es d s : exec (a ++ EDelete b es :: d) s ->
  exists ms r, In (EReceived b ms) a /\ In (EHandled b r) a /\ entries_of ms es /\ ms <> [] /\
    c_delete c = true /\ (r = Done \/ ~ kept_on_failure c) /\
    (registered = true -> r <> Missing /\ exists cl, called_for ms cl /\ In (EHandler b cl) a) /\
    (forall es', ~ In (EDelete b es') a /\ ~ In (EDelete b es') d).
Proof.
  intros H. pose proof (exec_inv _ _ _ _ _ H) as J. destruct (exec_split _ _ _ _ _ _ _ H) as (s1 & s2 & Ha & Hs). pose proof (exec_inv _ _ _ _ _ Ha) as I.
  inversion Hs as [? ? ? Hm|? ? ? ? ? ? ? Hh]; subst.
  - inversion Hm as [| | | | | | | |? ? ? ms r ? D E| | | | | | | |]; subst. destruct (i_pc _ _ _ _ I) as (P1 & P2 & P3 & _). apply deletes_spec in D. destruct D as (D1 & D2 & D3). apply entries_spec in E.
    exists ms, r. do 6 (split; [assumption|]). split.
    + intros R. split; [now apply (i_missing _ _ _ _ I b r P3)|]. exists (handler_call ms). split; [now apply handler_call_spec|auto].
    + intros es'. pose proof (i_once _ _ _ _ J KDelete b) as O. rewrite cnt_app, cnt_cons in O. cbn [is] in O. rewrite Nat.eqb_refl in O.
      split; intros X; (assert (Y : is KDelete b (EDelete b es') = true) by (cbn; apply Nat.eqb_refl)); pose proof (cnt_in _ _ _ X Y); lia.
  - apply hb_event in Hh. destruct Hh as (es0 & X & _). discriminate.
Qed.
(** A batch is received once and its handling ends once. *)
Theorem C28_once tr s b : exec tr s ->
  (forall ms ms', In (EReceived b ms) tr -> In (EReceived b ms') tr -> ms = ms') /\ (forall r r', In (EHandled b r) tr -> In (EHandled b r') tr -> r = r').
Proof.
  intros H. apply exec_inv in H. pose proof (fun k e e' => cnt_unique (is k b) tr e e' (i_once _ _ _ _ H k b)) as U.
  split; intros y y' A B; [specialize (U KReceived _ _ A B)|specialize (U KHandled _ _ A B)]; cbn in U; rewrite Nat.eqb_refl in U; specialize (U eq_refl eq_refl); now injection U.
Qed.
(** Before it polls again the consumer has handled what it received and deleted what is to be deleted. *)
Theorem C28_deleted tr s b ms : exec tr s -> s_pc s = Idle -> In (EReceived b ms) tr ->
  exists r, In (EHandled b r) tr /\ (to_delete c ms r -> exists es, entries_of ms es /\ In (EDelete b es) tr).
Proof.
  intros H P R. apply exec_inv in H. destruct (i_all _ _ _ _ H ltac:(rewrite P; discriminate) b ms R) as [X|X]; [rewrite P in X; destruct X|].
  destruct X as (r & X1 & X2 & _). exists r. split; [exact X1|]. intros D. apply deletes_spec in D. destruct (X2 D) as (es & E & I). exists es. split; [now apply entries_spec|exact I].
Qed.

(** C29: the polling task ends only when the handler panics or when the queue service sends a
    message without id or receipt handle. *)
Theorem C29_dead tr s : exec tr s -> s_pc s = Dead ->
  (exists b, In (EHandlerPanic b) tr) \/ (exists b ms m, In (EReceived b ms) tr /\ In m ms /\ incomplete m).
Proof. intros H D. destruct (exec_dead _ _ _ _ _ H D) as [P|P]; [right|left; exact P]. now apply (exec_panic _ _ _ _ _ H). Qed.
(** Otherwise it always has a next step, whatever happened before. *)
Theorem C29_progress tr s : exec tr s -> (forall b, ~ In (EHandlerPanic b) tr) -> (forall b ms m, In (EReceived b ms) tr -> In m ms -> ~ incomplete m) ->
  s_pc s <> Dead /\ exists e s', main_step c x registered s e s'.
Proof.
  intros H N1 N2. assert (D : s_pc s <> Dead). { intros D. destruct (C29_dead tr s H D) as [[b X]|(b & ms & m & X & Y & Z)]; [now apply (N1 b)|now apply (N2 b ms m)]. }
  split; [exact D|]. now apply progress.
Qed.
(** No answer is left out: any batch or error may follow a poll, and any result a handler call. *)
Theorem C29_receptive n hs : (forall ms, exists s', main_step c x registered (mk_state Receiving n hs) (Some (EReceived n ms)) s') /\
  (forall e, exists s', main_step c x registered (mk_state Receiving n hs) (Some (EReceiveError e)) s') /\
  (forall b ms r, r <> Missing -> exists s', main_step c x registered (mk_state (Handling b ms) n hs) (Some (EHandled b r)) s').
Proof. split; [|split]; intros; eexists; [apply M_received|apply M_receive_error|now apply M_done]. Qed.
(** It polls again after at most eight steps. *)
Theorem C29_bounded tr s n tr' s' : exec tr s -> runs c x registered s n tr' s' -> (forall w b v, ~ In (EReceive w b v) tr') -> n <= 8.
Proof. intros _ H N. pose proof (runs_rank _ _ _ _ _ _ _ H N) as L. assert (rank (s_pc s) <= 8) by (destruct (s_pc s); cbn; lia). lia. Qed.
(** A failed poll is followed by the pause for its kind of error. *)
Theorem C29_pause s e s1 o s2 : main_step c x registered s (Some (EReceiveError e)) s1 -> main_step c x registered s1 o s2 ->
  exists t, o = Some (EPause t) /\ s_pc s2 = Idle /\ (auth_error e -> t = auth_pause c) /\ (~ auth_error e -> t = c_polling_wait_ms c).
Proof.
  intros H1 H2. inversion H1; subst. inversion H2; subst. eexists. split; [reflexivity|]. split; [reflexivity|]. unfold pause_after. split.
  - intros (status & code & -> & A). destruct (is_connection_error status code) eqn:E; [reflexivity|]. exfalso. unfold is_connection_error in E. apply orb_false_elim in E. destruct E as [E1 E2]. apply N.eqb_neq in E1.
    destruct A as [A|[A|A]]; [congruence| |]; subst code; discriminate E2.
  - intros A. destruct e as [status code|]; [|reflexivity]. destruct (is_connection_error status code) eqn:E; [|reflexivity]. elim A. now apply auth_iff.
Qed.
(** Every poll asks for what is configured. *)
Theorem C29_request tr s w n v : exec tr s -> In (EReceive w n v) tr ->
  w = match c_wait_seconds c with Some t => t | None => 20%Z end /\ n = match c_batch_size c with Some k => k | None => 1%Z end /\
  v = match c_visibility c with Some t => t | None => 30%Z end.
Proof.
  intros H I. apply in_split in I. destruct I as (a & d & ->). destruct (exec_split _ _ _ _ _ _ _ H) as (s1 & s2 & _ & Hs). inversion Hs as [? ? ? Hm|? ? ? ? ? ? ? Hh]; subst; [now inversion Hm; subst|].
  apply hb_event in Hh. destruct Hh as (es0 & X & _). discriminate.
Qed.

(** C30: the heartbeat extends the visibility of exactly the messages of a batch that was
    received, to the configured time, and only with an interval configured. *)
Theorem C30_extend a b es t d s : exec (a ++ EExtend b es t :: d) s ->
  exists ms i, In (EReceived b ms) a /\ entries_of ms es /\ t = extend_to x /\ e_interval x = Some i /\ i <> 0%N.
Proof.
  intros H. destruct (exec_split _ _ _ _ _ _ _ H) as (s1 & s2 & Ha & Hs). pose proof (exec_hb_inv _ _ _ _ _ Ha) as I. inversion Hs as [? ? ? Hm|p n l h r ? h' Hh]; subst; [inversion Hm|].
  apply hb_event in Hh. destruct Hh as (es0 & X & E & N). injection X as -> -> ->. destruct (hb_known _ _ _ I h) as (K1 & K2 & _); [cbn; rewrite in_app_iff; cbn; auto|].
  destruct (e_interval x) as [i|] eqn:Ei; [|now elim K2]. exists (h_msgs h), i. repeat split; auto. intros ->. now elim N.
Qed.
(** While the handler runs an extension is always possible. *)
Theorem C30_live tr s b ms es i : exec tr s -> s_pc s = Handling b ms -> e_interval x = Some i -> i <> 0%N -> entries_of ms es ->
  exists s', runs c x registered s 0 [EExtend b es (extend_to x)] s' /\ s_pc s' = Handling b ms.
Proof.
  intros H P Hi H0 E. apply entries_spec in E. destruct (exec_live _ _ _ _ _ H b ms i es P Hi H0 E) as (h & Hin & Hb & Hm & Hk). destruct s as [p n hs]. cbn [s_pc s_hbs] in *. subst p.
  apply in_split in Hin. destruct Hin as (l & r & ->). destruct h as [b' ms' k q]. cbn in Hb, Hm, Hk. subst b' ms' k.
  assert (N : e_interval x <> Some 0%N) by (rewrite Hi; congruence).
  assert (R : forall s, runs c x registered s 0 [] s) by apply R_refl. destruct q.
  - eexists. split; [exact (R_hb c x registered _ 0 [] _ _ l _ r _ _ (R _) (H_extend_first x b ms false es N E))|reflexivity].
  - eexists. split; [exact (R_hb c x registered _ 0 [] _ _ l _ r _ _ (R _) (H_extend x b ms false es N E))|reflexivity].
  - pose proof (R_hb c x registered _ 0 [] _ n l _ r _ _ (R (mk_state (Handling b ms) n (l ++ mk_hb b ms false HCheck :: r))) (H_no_signal x b ms)) as X. cbn in X.
    eexists. split; [exact (R_hb c x registered _ 0 [] _ n l _ r _ _ X (H_extend_first x b ms false es N E))|reflexivity].
Qed.
(** At most two extensions are sent after handling has ended. *)
Theorem C30_bound a b r d s : exec (a ++ EHandled b r :: d) s -> length (filter (extends b) d) <= 2.
Proof. intros H. pose proof (after_handled _ _ _ _ _ _ _ _ H) as L. unfold cnt in L. lia. Qed.
(** The visibility of a batch is ended by the consumer only after a failure, when configured, once,
    and then set to zero. *)
Theorem C30_terminate a b es t d s : exec (a ++ ETerminate b es t :: d) s ->
  exists ms r, In (EReceived b ms) a /\ In (EHandled b r) a /\ r <> Done /\ entries_of ms es /\ t = 0%Z /\ c_terminate c = true /\
    (forall es' t', ~ In (ETerminate b es' t') a /\ ~ In (ETerminate b es' t') d).
Proof.
  intros H. pose proof (exec_inv _ _ _ _ _ H) as J. destruct (exec_split _ _ _ _ _ _ _ H) as (s1 & s2 & Ha & Hs). pose proof (exec_inv _ _ _ _ _ Ha) as I.
  inversion Hs as [? ? ? Hm|? ? ? ? ? ? ? Hh]; subst.
  - inversion Hm as [| | | | | | | | | | | | |? ? ? ms r ? R T E| | |]; subst. destruct (i_pc _ _ _ _ I) as (P1 & P2 & P3 & _). apply entries_spec in E.
    exists ms, r. do 2 (split; [assumption|]). split; [intros ->; discriminate|]. split; [assumption|]. split; [reflexivity|]. split; [exact T|].
    intros es' t'. pose proof (i_once _ _ _ _ J KTerm b) as O. rewrite cnt_app, cnt_cons in O. cbn [is] in O. rewrite Nat.eqb_refl in O.
    split; intros X; (assert (Y : is KTerm b (ETerminate b es' t') = true) by (cbn; apply Nat.eqb_refl)); pose proof (cnt_in _ _ _ X Y); lia.
  - apply hb_event in Hh. destruct Hh as (es0 & X & _). discriminate.
Qed.
Theorem C30_terminated tr s b ms r : exec tr s -> s_pc s = Idle -> In (EReceived b ms) tr -> In (EHandled b r) tr -> r <> Done -> c_terminate c = true ->
  exists es, entries_of ms es /\ In (ETerminate b es 0%Z) tr.
Proof.
  intros H P R Hr Nr T. pose proof (proj2 (C28_once tr s b H)) as U. apply exec_inv in H. destruct (i_all _ _ _ _ H ltac:(rewrite P; discriminate) b ms R) as [X|X]; [rewrite P in X; destruct X|].
  destruct X as (r' & X1 & _ & X3 & _). rewrite (U _ _ X1 Hr) in X3. destruct X3 as (es & E & I); [now destruct r|exact T|]. exists es. split; [now apply entries_spec|exact I].
Qed.

(** C70: the handler is called for a batch with exactly its messages, at most once. *)
Theorem C70_call a b cl d s : exec (a ++ EHandler b cl :: d) s ->
  exists ms, In (EReceived b ms) a /\ called_for ms cl /\ (forall r, ~ In (EHandled b r) a) /\ (forall cl', ~ In (EHandler b cl') a /\ ~ In (EHandler b cl') d).
Proof.
  intros H. pose proof (exec_inv _ _ _ _ _ H) as J. destruct (exec_split _ _ _ _ _ _ _ H) as (s1 & s2 & Ha & Hs). pose proof (exec_inv _ _ _ _ _ Ha) as I.
  inversion Hs as [? ? ? Hm|? ? ? ? ? ? ? Hh]; subst.
  - inversion Hm as [| | |? ? ? ms R| | | | | | | | | | | | |]; subst. destruct (i_pc _ _ _ _ I) as (P1 & P2 & P3 & _). exists ms. split; [assumption|]. split; [now apply handler_call_spec|]. split.
    + intros r X. pose proof (cnt_0 _ _ _ P3 X) as Y. cbn in Y. now rewrite Nat.eqb_refl in Y.
    + intros cl'. pose proof (i_once _ _ _ _ J KHandler b) as O. rewrite cnt_app, cnt_cons in O. cbn [is] in O. rewrite Nat.eqb_refl in O.
      split; intros X; (assert (Y : is KHandler b (EHandler b cl') = true) by (cbn; apply Nat.eqb_refl)); pose proof (cnt_in _ _ _ X Y); lia.
  - apply hb_event in Hh. destruct Hh as (es0 & X & _). discriminate.
Qed.
(** With a handler registered no received batch is left out. *)
Theorem C70_every tr s b ms : exec tr s -> s_pc s = Idle -> registered = true -> In (EReceived b ms) tr ->
  exists cl r, called_for ms cl /\ In (EHandler b cl) tr /\ In (EHandled b r) tr /\ r <> Missing.
Proof.
  intros H P R Hb. apply exec_inv in H. destruct (i_all _ _ _ _ H ltac:(rewrite P; discriminate) b ms Hb) as [X|X]; [rewrite P in X; destruct X|].
  destruct X as (r & X1 & _ & _ & X4). exists (handler_call ms), r. split; [now apply handler_call_spec|]. repeat split; auto. now apply (i_missing _ _ _ _ H b r X1).
Qed.
End Config.

(** Executions *)
Tactic Notation "go" ident(X) uconstr(k) :=
  let Y := fresh "Y" in
  match type of X with SqsModel.exec ?c ?x ?r ?tr ?s => eassert (Y : step c x r s _ _); [apply S_main; eapply k; try reflexivity; try discriminate|] end;
  apply (X_step _ _ _ _ _ _ _ X) in Y; clear X; rename Y into X.
Definition ex_msg := mk_message (Some "i"%string) (Some "r"%string) "body"%string.
Definition ex_config := mk_config 100 None 5 None None None true true None.
Definition ex_ext := mk_ext None (Some 10%N).
Definition recv := EReceive 20 1 30.
Definition failed_trace : list event := [recv; EReceived 0 [ex_msg]; EHandler 0 (Single ex_msg); EHandled 0 Failed; EDelete 0 [("i"%string, "r"%string)]].
Definition hb0 k q := mk_hb 0 [ex_msg] k q.
Lemma failed_run : exec ex_config ex_ext true failed_trace (mk_state (Deleting 0 [ex_msg] Failed) 1 [hb0 true HWait]).
Proof.
  pose proof (X_init ex_config ex_ext true) as X.
  go X (M_receive). go X (M_received _ _ _ _ _ [ex_msg]).
  go X (M_handler). go X (M_done _ _ _ _ _ _ _ Failed).
  go X (M_delete). exact X.
Qed.
Definition zeroed_trace : list event := failed_trace ++ [ETerminate 0 [("i"%string, "r"%string)] 0; EExtend 0 [("i"%string, "r"%string)] 30; EPause 100].
Lemma zeroed_run : exec ex_config ex_ext true zeroed_trace (mk_state Idle 1 [hb0 true HCheck]).
Proof.
  pose proof failed_run as X.
  go X (M_deleted).
  go X (M_terminate).
  pose proof (X_step _ _ _ _ _ _ _ X (S_hb ex_config ex_ext true Terminating 1 [] _ [] _ _ (H_extend_first ex_ext 0 [ex_msg] true [("i"%string, "r"%string)] ltac:(discriminate) eq_refl))) as Y. cbn [app opt_list] in Y. clear X. rename Y into X.
  go X (M_terminated). go X (M_sleep). exact X.
Qed.
Lemma start c x registered ms : exec c x registered [EReceive (f_wait_seconds (f c)) (f_batch_size (f c)) (f_visibility (f c)); EReceived 0 ms] (mk_state (Got 0 ms) 1 []).
Proof.
  pose proof (X_init c x registered) as X.
  go X (M_receive). go X (M_received _ _ _ _ _ ms). exact X.
Qed.

(** C28: without a setting for failures a batch whose handler failed is deleted. *)
Theorem C28_default_refuted : exists c x tr s ms b es, c_delete_on_failure c = None /\ exec c x true tr s /\ In (EReceived b ms) tr /\ ms <> [] /\ In (EHandled b Failed) tr /\ In (EDelete b es) tr.
Proof. exists ex_config, ex_ext, failed_trace. do 4 eexists. split; [reflexivity|]. split; [apply failed_run|]. cbn. split; [right; left; reflexivity|]. split; [discriminate|]. split; auto 10. Qed.
(** C28: when no handler is registered messages are deleted that no handler has seen. *)
Theorem C28_missing_refuted : exists c x tr s ms b es, exec c x false tr s /\ In (EReceived b ms) tr /\ ms <> [] /\ In (EDelete b es) tr /\ (forall b' cl, ~ In (EHandler b' cl) tr).
Proof.
  exists ex_config, (mk_ext None None). pose proof (start ex_config (mk_ext None None) false [ex_msg]) as X.
  go X (M_missing).
  go X (M_delete).
  do 5 eexists. split; [exact X|]. cbn. split; [right; left; reflexivity|]. split; [discriminate|]. split; [auto 10|]. intros b' cl H. repeat destruct H as [H|H]; try discriminate. exact H.
Qed.
(** C29: a handler that panics ends the consumer, and so does a message without a receipt handle. *)
Theorem C29_handler_panic_refuted : exists c x tr s, exec c x true tr s /\ (forall b ms m, In (EReceived b ms) tr -> In m ms -> ~ incomplete m) /\ s_pc s = Dead /\ (forall e s', ~ main_step c x true s e s').
Proof.
  exists ex_config, (mk_ext None None). pose proof (start ex_config (mk_ext None None) true [ex_msg]) as X.
  go X (M_handler). go X (M_handler_panic).
  do 2 eexists. split; [exact X|]. split; [|split; [reflexivity|intros e s' H; inversion H]].
  intros b ms m H Hm. cbn in H. repeat destruct H as [H|H]; try discriminate; [|destruct H]. injection H as _ <-. destruct Hm as [<-|[]]. intros [Y|Y]; discriminate.
Qed.
Theorem C29_incomplete_refuted : exists c x tr s, exec c x true tr s /\ (forall b, ~ In (EHandlerPanic b) tr) /\ In (EHandled 0 Done) tr /\ s_pc s = Dead /\ (forall e s', ~ main_step c x true s e s').
Proof.
  exists ex_config, (mk_ext None None). pose proof (start ex_config (mk_ext None None) true [mk_message (Some "i"%string) None ""%string]) as X.
  go X (M_handler). go X (M_done _ _ _ _ _ _ _ Done).
  go X (M_delete_panic).
  do 2 eexists. split; [exact X|]. split; [|split; [cbn; auto 10|split; [reflexivity|intros e s' H; inversion H]]].
  intros b H. cbn in H. repeat destruct H as [H|H]; try discriminate. exact H.
Qed.
(** C30: an extension can follow the request that ends the visibility, so the failed batch stays hidden. *)
Theorem C30_after_refuted : exists c x a es es' t d s, exec c x true (a ++ ETerminate 0 es 0 :: EExtend 0 es' t :: d) s /\ In (EHandled 0 Failed) a /\ (t > 0)%Z.
Proof. exists ex_config, ex_ext, failed_trace. do 5 eexists. split; [exact zeroed_run|]. split; [cbn; auto 10|lia]. Qed.
(** C30: with an interval of zero the visibility is never extended. *)
Theorem C30_zero_interval_refuted c x registered tr s b es t : e_interval x = Some 0%N -> exec c x registered tr s -> ~ In (EExtend b es t) tr.
Proof. intros Hi H I. apply in_split in I. destruct I as (a & d & ->). destruct (C30_extend _ _ _ _ _ _ _ _ _ H) as (ms & i & _ & _ & _ & E & N). congruence. Qed.
(** C70: the handler is also called for polls that brought no message. *)
Theorem C70_empty_refuted : exists c x tr s b, exec c x true tr s /\ In (EReceived b []) tr /\ In (EHandler b (Batch [])) tr.
Proof.
  exists ex_config, ex_ext. pose proof (start ex_config ex_ext true []) as X. go X (M_handler).
  do 3 eexists. split; [exact X|]. cbn. auto 10.
Qed.

Example C28_nonvacuous : exec ex_config ex_ext true (firstn 4 failed_trace ++ EDelete 0 [("i"%string, "r"%string)] :: skipn 5 zeroed_trace) (mk_state Idle 1 [hb0 true HCheck]).
Proof. exact zeroed_run. Qed.
Example C29_nonvacuous : exec ex_config ex_ext true zeroed_trace (mk_state Idle 1 [hb0 true HCheck]) /\ (forall b, ~ In (EHandlerPanic b) zeroed_trace) /\
  (forall b ms m, In (EReceived b ms) zeroed_trace -> In m ms -> ~ incomplete m) /\
  (exists s1 s2, main_step ex_config ex_ext true (mk_state Receiving 0 []) (Some (EReceiveError (ServiceError 403 None))) s1 /\ main_step ex_config ex_ext true s1 (Some (EPause 10)) s2).
Proof.
  split; [exact zeroed_run|]. split; [intros b H; cbn in H; repeat destruct H as [H|H]; try discriminate; exact H|]. split.
  - intros b ms m H Hm. cbn in H. repeat destruct H as [H|H]; try discriminate; [|destruct H]. injection H as _ <-. destruct Hm as [<-|[]]. intros [Y|Y]; discriminate.
  - do 2 eexists. split; [apply M_receive_error|apply M_sleep].
Qed.
Example C30_nonvacuous : exec ex_config ex_ext true (firstn 6 zeroed_trace ++ EExtend 0 [("i"%string, "r"%string)] 30 :: [EPause 100]) (mk_state Idle 1 [hb0 true HCheck]) /\
  exec ex_config ex_ext true (firstn 5 zeroed_trace ++ ETerminate 0 [("i"%string, "r"%string)] 0 :: skipn 6 zeroed_trace) (mk_state Idle 1 [hb0 true HCheck]) /\
  exec ex_config ex_ext true (firstn 3 failed_trace) (mk_state (Handling 0 [ex_msg]) 1 [hb0 false HWait]).
Proof.
  split; [exact zeroed_run|]. split; [exact zeroed_run|]. pose proof (start ex_config ex_ext true [ex_msg]) as X. go X (M_handler). exact X.
Qed.
Example C70_nonvacuous : exec ex_config ex_ext true (firstn 2 zeroed_trace ++ EHandler 0 (Single ex_msg) :: skipn 3 zeroed_trace) (mk_state Idle 1 [hb0 true HCheck]) /\ called_for [ex_msg] (Single ex_msg).
Proof. split; [exact zeroed_run|constructor]. Qed.
Print Assumptions C28_delete.
Print Assumptions C28_once.
Print Assumptions C28_deleted.
Print Assumptions C29_dead.
Print Assumptions C29_progress.
Print Assumptions C29_receptive.
Print Assumptions C29_bounded.
Print Assumptions C29_pause.
Print Assumptions C29_request.
Print Assumptions C30_extend.
Print Assumptions C30_live.
Print Assumptions C30_bound.
Print Assumptions C30_terminate.
Print Assumptions C30_terminated.
Print Assumptions C70_call.
Print Assumptions C70_every.
Print Assumptions C28_default_refuted.
Print Assumptions C28_missing_refuted.
Print Assumptions C29_handler_panic_refuted.
Print Assumptions C29_incomplete_refuted.
Print Assumptions C30_after_refuted.
Print Assumptions C30_zero_interval_refuted.
Print Assumptions C70_empty_refuted.
