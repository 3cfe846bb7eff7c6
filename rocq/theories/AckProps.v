(** Acknowledgement tracking: C31, C32, C33 and C61. *)
From Verif Require Import Base AckModel AckSpec AckProofs.
Open Scope string_scope.
Local Open Scope N_scope.
Local Open Scope list_scope.

Definition cf0 : ack_config := {| cf_timeout := 10; cf_max := 2 |}.

(** ** C31 *)

(** Whatever the schedule, asking for the status of a message gives the status last
    recorded for it, and "lost" when it is not (or no longer) tracked. *)
Theorem C31_check_answers_current_status :
  forall cf w log pre id tx st post, reachable cf w log -> log = pre ++ LCheck id tx st :: post ->
  current id pre st \/ (untracked id pre /\ st = Lost).
Proof. intros. eapply check_spec; eauto. Qed.

(** A waiter is only answered with a final status: the current one, or "lost" for an
    untracked message. *)
Theorem C31_wait_answers_final_status :
  forall cf w log pre id tx st post, reachable cf w log -> log = pre ++ LWait id tx st :: post ->
  is_pending st = false /\ (current id pre st \/ (untracked id pre /\ st = Lost)).
Proof. intros. eapply wait_spec; eauto. Qed.

(** An answer "received" (to a check or to a waiter) means that an acknowledgement was recorded before. *)
Theorem C31_received_means_acknowledged :
  forall cf w log pre id tx post e, reachable cf w log -> log = pre ++ e :: post ->
  (e = LCheck id tx Received \/ e = LWait id tx Received) -> exists t, In (LRecord id Received t) pre.
Proof.
  intros cf w log pre id tx post e R E [-> | ->].
  - destruct (check_spec cf w log R _ _ _ _ _ E) as [H|[_ H]]; [|discriminate]. now apply current_recorded.
  - destruct (wait_spec cf w log R _ _ _ _ _ E) as [_ [H|[_ H]]]; [|discriminate]. now apply current_recorded.
Qed.

(** A waiter whose message is pending keeps waiting, and one whose message is not is
    answered at its next poll. *)
Theorem C31_poll_answers_iff_final :
  forall cf w log before id tx after, reachable cf w log -> w_waits w = before ++ (id, tx) :: after ->
  (exists m cl, current id log (Pending m cl) /\ wstep cf w (WPoll (length before)) = Some (w, [])) \/
  (exists st, is_pending st = false /\ (current id log st \/ untracked id log /\ st = Lost) /\
     exists w', wstep cf w (WPoll (length before)) = Some (w', [LWait id tx st]) /\ w_waits w' = before ++ after).
Proof.
  intros cf w log before id tx after R Hw. pose proof (reachable_agrees _ _ _ R) as [_ V].
  assert (Hi: nth_error (w_waits w) (length before) = Some (id, tx)).
  { rewrite Hw, nth_error_app2, Nat.sub_diag by lia. reflexivity. }
  assert (Hr: remove_nth (length before) (w_waits w) = before ++ after).
  { rewrite Hw. clear. induction before as [|x l IH]; cbn; [reflexivity|now rewrite IH]. }
  cbn. rewrite Hi. unfold wait_answer. rewrite V. destruct (view id log) as [e|] eqn:Ev.
  - assert (C: current id log (en_status e)) by (apply view_current; eauto).
    destruct (en_status e) as [m cl| |] eqn:Es; cbn.
    + left. exists m, cl. split; [assumption|reflexivity].
    + right. exists Received. split; [reflexivity|]. split; [auto|]. eexists. split; [reflexivity|exact Hr].
    + right. exists Lost. split; [reflexivity|]. split; [auto|]. eexists. split; [reflexivity|exact Hr].
  - right. exists Lost. split; [reflexivity|]. split; [right; split; [now apply view_untracked|reflexivity]|].
    eexists. split; [reflexivity|exact Hr].
Qed.

(** A tracked message is only forgotten after the registry was told it is lost. *)
Theorem C31_forgotten_only_after_reported_lost :
  forall cf w log pre id post, reachable cf w log -> log = pre ++ LForget id :: post ->
  exists cl p mid, pre = p ++ LAction (ActLost id cl) :: mid /\ ~ In (LForget id) mid.
Proof. intros. eapply forget_after_lost; eauto. Qed.

Example C31_nonvacuous : exists w log, reachable cf0 w log /\
  log = [LCheck "a" 1%nat Lost; LRecord "a" (Pending "hi" ["c"]) 5; LCheck "a" 2%nat (Pending "hi" ["c"]);
         LRecord "a" Received 7; LWait "a" 3%nat Received;
         LRecord "b" (Pending "yo" ["d"]) 8; LRecord "b" (Pending "yo" ["d"]) 9;
         LDecide 30 (ActLost "b" ["d"]); LAction (ActLost "b" ["d"]); LForget "b"; LWait "b" 4%nat Lost].
Proof.
  eexists _, _. split.
  - exists [WRecv (MCheck "a" 1) 0; WRecv (MStatus "a" (Pending "hi" ["c"])) 5; WRecv (MCheck "a" 2) 5;
            WRecv (MWait "a" 3) 6; WPoll 0; WRecv (MStatus "a" Received) 7; WPoll 0;
            WRecv (MStatus "b" (Pending "yo" ["d"])) 8; WRecv (MStatus "b" (Pending "yo" ["d"])) 9;
            WRecv (MWait "b" 4) 9; WTick 30; WScan; WSend; WPoll 0; WForget; WPoll 0].
    vm_compute. reflexivity.
  - reflexivity.
Qed.

(** ** C32 *)

(** A decision of the checker is always due at the instant the interval fired. *)
Theorem C32_decisions_are_due :
  forall cf w log pre now a post, reachable cf w log -> log = pre ++ LDecide now a :: post -> due cf pre now a.
Proof. intros. eapply decide_entry; eauto. Qed.

(** Every action that is due when the checker scans is decided in that scan. *)
Theorem C32_due_is_decided :
  forall cf w log now a, reachable cf w log -> w_ticker w = TScan now -> due cf log now a ->
  exists w' out, wstep cf w WScan = Some (w', out) /\ In (LDecide now a) out.
Proof. exact scan_complete. Qed.

(** Only decided actions reach the registry. *)
Theorem C32_only_decided_actions :
  forall cf w log a, reachable cf w log -> In (LAction a) log -> exists t, In (LDecide t a) log.
Proof. intros. eapply action_decided; eauto. Qed.

(** What a scan decides is handed to the registry completely, once and in order, each
    lost message being forgotten right after its loss is reported, whatever else
    happens meanwhile; [owed w'] is what is left, and a next step for it is possible. *)
Theorem C32_decided_is_handed_over :
  forall cf w log w1 out evs w' new, reachable cf w log ->
  wstep cf w WScan = Some (w1, out) -> wrun cf w1 (log ++ out) evs = Some (w', (log ++ out) ++ new) -> ~ In WScan evs ->
  exists now acts, out = map (LDecide now) acts /\
    filter is_hand new ++ owed w' = flat_map hand acts /\
    (owed w' <> [] -> exists ev w2 e, wstep cf w' ev = Some (w2, [e]) /\ (ev = WSend \/ ev = WForget) /\ e :: owed w2 = owed w').
Proof.
  intros cf w log w1 out evs w' new R Hs Hr Hn. destruct (scan_owed _ _ _ _ Hs) as (now & acts & -> & Ho).
  exists now, acts. split; [reflexivity|]. split.
  - rewrite <- Ho. eapply owed_run; eauto.
  - eapply owed_progress. eapply reachable_run; [eapply reachable_step; eauto|exact Hr].
Qed.

(** When each resend is recorded as a send before the next decision, a message is
    resent at most (maximum - 1) times. *)
Theorem C32_bounded_resends_partial :
  forall cf w log id recent, reachable cf w log -> life id log recent -> prompt id recent ->
  N.of_nat (ndecides id recent) <= cf_max cf - 1.
Proof. exact bounded_resends. Qed.

(** Without that, the number of resends of a message sent once has no bound. *)
Theorem C32_bounded_resends_refuted :
  forall cf id msg cl n, 1 < cf_max cf ->
  exists w log, reachable cf w log /\ life id log log /\ In (LRecord id (Pending msg cl) 0) log /\
    sends id log 1 /\ ndecides id log = n.
Proof. exact unbounded_resends. Qed.

(** Unset options give 15 seconds and four sends. *)
Theorem C32_defaults :
  ack_config_of None None = {| cf_timeout := 15000; cf_max := 4 |} /\
  forall t m, ack_config_of (Some t) (Some m) = {| cf_timeout := t; cf_max := m |}.
Proof. split; reflexivity. Qed.

Example C32_nonvacuous : exists w log, reachable cf0 w log /\ life "b" log log /\ prompt "b" log /\
  log = [LRecord "b" (Pending "yo" ["d"]) 8; LDecide 19 (Resend "b" "b" "yo" ["d"]);
         LAction (Resend "b" "b" "yo" ["d"]); LRecord "b" (Pending "yo" ["d"]) 20;
         LDecide 31 (ActLost "b" ["d"]); LAction (ActLost "b" ["d"])].
Proof.
  eexists _, _. split; [|split; [|split; [|reflexivity]]].
  - exists [WRecv (MStatus "b" (Pending "yo" ["d"])) 8; WTick 18; WScan; WTick 19; WScan; WSend;
            WRecv (MStatus "b" (Pending "yo" ["d"])) 20; WTick 31; WScan; WSend].
    vm_compute. reflexivity.
  - exists []. split; [reflexivity|]. split; [|now left]. intros H; cbn in H.
    repeat (destruct H as [H|H]; [discriminate|]). destruct H.
  - intros a e1 b e2 c E H1 H2.
    repeat (destruct a as [|? a]; [injection E as <- E; try discriminate H1;
      repeat (destruct b as [|? b]; [injection E as <- E; discriminate H2|injection E as <- E]);
      destruct b; discriminate E|injection E as <- E]).
    destruct a; discriminate E.
Qed.

(** ** C33 *)

(** The resend that reaches the registry names the message id as the client. *)
Theorem C33_resend_target_refuted :
  forall cf w log c id m cl, reachable cf w log -> In (LAction (Resend c id m cl)) log -> c = id.
Proof.
  intros cf w log c id m cl R H. destruct (action_decided cf w log R _ H) as (t & Ht).
  apply in_split in Ht. destruct Ht as (pre & post & E).
  exact (proj1 (decide_entry cf w log R _ _ _ _ E)).
Qed.

(** Its text and the clients to inform are those of the last recorded send of the
    message at the time of the decision. *)
Theorem C33_resend_content_partial :
  forall cf w log c id m cl, reachable cf w log -> In (LAction (Resend c id m cl)) log ->
  exists pre now post, log = pre ++ LDecide now (Resend c id m cl) :: post /\ current id pre (Pending m cl).
Proof.
  intros cf w log c id m cl R H. destruct (action_decided cf w log R _ H) as (t & Ht).
  apply in_split in Ht. destruct Ht as (pre & post & E). exists pre, t, post. split; [exact E|].
  exact (proj1 (proj2 (decide_entry cf w log R _ _ _ _ E))).
Qed.

Example C33_nonvacuous : exists w log, reachable cf0 w log /\ In (LAction (Resend "b" "b" "yo" ["d"])) log.
Proof.
  eexists _, _. split.
  - exists [WRecv (MStatus "b" (Pending "yo" ["d"])) 8; WTick 19; WScan; WSend]. vm_compute. reflexivity.
  - cbn. auto.
Qed.

(** ** C61 *)

(** Once a message is acknowledged while the checker has nothing in hand about it, and
    as long as it is not sent again, it stays "received" and is never resent, reported
    lost or forgotten. *)
Theorem C61_acknowledgement_is_final_partial :
  forall cf evs w log id w' new, reachable cf w log -> current id log Received -> ~ busy_with id w ->
  wrun cf w log evs = Some (w', log ++ new) ->
  (forall t st, st <> Received -> ~ In (LRecord id st t) new) ->
  current id (log ++ new) Received /\ forall e, In e new -> gives_up id e = false.
Proof. exact ack_final. Qed.

(** If the checker has already decided that the message is lost, the acknowledgement
    that arrives meanwhile is thrown away: the loss is reported, the message is
    forgotten and the next check answers "lost". *)
Theorem C61_acknowledgement_is_final_refuted :
  forall cf id cl, exists w log, reachable cf w log /\ current id log Received /\
  exists w' rest, wrun cf w log [WSend; WForget; WRecv (MCheck id 0) 0] = Some (w', log ++ rest) /\
    rest = [LAction (ActLost id cl); LForget id; LCheck id 0%nat Lost] /\
    (forall t st, ~ In (LRecord id st t) rest).
Proof.
  intros cf id cl. set (msg := "hello"). set (T := cf_timeout cf + 1).
  assert (G: forall k e0 log0, en_status e0 = Pending msg cl -> en_last e0 = Some 0 ->
     forall w log, w = {| w_acks := [(id, e0)]; w_ticker := TIdle; w_waits := [] |} -> reachable cf w log -> log0 = log ->
     exists e log', reachable cf {| w_acks := [(id, e)]; w_ticker := TIdle; w_waits := [] |} log' /\
       en_status e = Pending msg cl /\ en_last e = Some 0 /\ en_attempts e = en_attempts e0 + N.of_nat k).
  { induction k as [|k IH]; intros e0 log0 Hs Hl w log -> R _.
    - exists e0, log. split; [exact R|]. split; [assumption|]. split; [assumption|]. lia.
    - assert (Hstep: wstep cf {| w_acks := [(id, e0)]; w_ticker := TIdle; w_waits := [] |} (WRecv (MStatus id (Pending msg cl)) 0) =
        Some ({| w_acks := [(id, {| en_status := Pending msg cl; en_attempts := en_attempts e0 + 1; en_last := Some 0 |})];
                 w_ticker := TIdle; w_waits := [] |}, [LRecord id (Pending msg cl) 0])).
      { cbn. unfold record_ack. cbn. rewrite String.eqb_refl. cbn. reflexivity. }
      destruct (IH {| en_status := Pending msg cl; en_attempts := en_attempts e0 + 1; en_last := Some 0 |} _ eq_refl eq_refl _ _
                  eq_refl (reachable_step _ _ _ _ _ _ R Hstep) eq_refl) as (e & log' & R' & A & B & C).
      exists e, log'. split; [exact R'|]. split; [assumption|]. split; [assumption|]. rewrite C. cbn [en_attempts]. lia. }
  assert (R1: reachable cf {| w_acks := [(id, {| en_status := Pending msg cl; en_attempts := 1; en_last := Some 0 |})];
                              w_ticker := TIdle; w_waits := [] |} [LRecord id (Pending msg cl) 0]).
  { exists [WRecv (MStatus id (Pending msg cl)) 0]. reflexivity. }
  destruct (G (N.to_nat (cf_max cf)) {| en_status := Pending msg cl; en_attempts := 1; en_last := Some 0 |}
              _ eq_refl eq_refl _ _ eq_refl R1 eq_refl) as (e & log & R & Hs & Hl & Ha).
  cbn [en_attempts] in Ha.
  assert (Hrun: wrun cf {| w_acks := [(id, e)]; w_ticker := TIdle; w_waits := [] |} log
            [WTick T; WScan; WRecv (MStatus id Received) T] =
          Some ({| w_acks := [(id, {| en_status := Received; en_attempts := en_attempts e; en_last := en_last e |})];
                   w_ticker := TSend [ActLost id cl]; w_waits := [] |},
                log ++ [LDecide T (ActLost id cl); LRecord id Received T])).
  { cbn [wrun wstep w_ticker w_acks w_waits flat_map decide]. rewrite Hs, Hl.
    replace (cf_timeout cf <? T - 0) with true by (symmetry; apply N.ltb_lt; unfold T; lia).
    replace (cf_max cf <=? en_attempts e) with true by (symmetry; apply N.leb_le; lia).
    cbn. unfold record_ack. cbn. rewrite String.eqb_refl. cbn. rewrite app_nil_r, <- app_assoc, Hl. reflexivity. }
  eexists _, _. split; [exact (reachable_run _ _ _ _ _ _ R Hrun)|]. split.
  - exists (log ++ [LDecide T (ActLost id cl)]), (LRecord id Received T), []. split; [now rewrite <- app_assoc|].
    split; [cbn; destruct (string_dec id id); congruence|intros o []].
  - eexists _, _. split; [|split; [reflexivity|]].
    + cbn. rewrite String.eqb_refl. cbn. rewrite <- !app_assoc. reflexivity.
    + intros t st H. cbn in H. destruct H as [H|[H|[H|[]]]]; discriminate.
Qed.

Example C61_nonvacuous : exists w log, reachable cf0 w log /\ current "a" log Received /\ ~ busy_with "a" w /\
  busy_with "b" w.
Proof.
  eexists _, _. split; [|split; [|split]].
  - exists [WRecv (MStatus "a" (Pending "hi" ["c"])) 1; WRecv (MStatus "b" (Pending "yo" ["d"])) 1;
            WRecv (MStatus "a" Received) 2; WTick 31; WScan]. vm_compute. reflexivity.
  - exists [LRecord "a" (Pending "hi" ["c"]) 1; LRecord "b" (Pending "yo" ["d"]) 1], (LRecord "a" Received 2),
      [LDecide 31 (Resend "b" "b" "yo" ["d"])]. split; [reflexivity|]. split; [reflexivity|].
    intros o [<-|[]]. reflexivity.
  - intros (a & [<-|[]] & H). discriminate H.
  - eexists. split; [left; reflexivity|reflexivity].
Qed.

Print Assumptions C31_check_answers_current_status.
Print Assumptions C31_wait_answers_final_status.
Print Assumptions C31_received_means_acknowledged.
Print Assumptions C31_poll_answers_iff_final.
Print Assumptions C31_forgotten_only_after_reported_lost.
Print Assumptions C32_decisions_are_due.
Print Assumptions C32_due_is_decided.
Print Assumptions C32_only_decided_actions.
Print Assumptions C32_decided_is_handed_over.
Print Assumptions C32_bounded_resends_partial.
Print Assumptions C32_bounded_resends_refuted.
Print Assumptions C32_defaults.
Print Assumptions C33_resend_target_refuted.
Print Assumptions C33_resend_content_partial.
Print Assumptions C61_acknowledgement_is_final_partial.
Print Assumptions C61_acknowledgement_is_final_refuted.
