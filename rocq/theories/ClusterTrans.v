(** The steps of ClusterModel.v as a relation, one constructor per outcome, and
    histories of one node and of the cluster. *)
From Verif Require Import Base AckModel AckSpec AckProofs ClusterModel ClusterSpec.
Open Scope string_scope.
Local Open Scope list_scope.

Definition ws_of (n : node) (j : job) : ws_message :=
  {| wm_conn := j_conn j; wm_source := n_name n; wm_inform := j_inform j; wm_id := j_id j; wm_text := j_text j |}.

Inductive strans (n : node) (w : who) (tx : nat) (j : job) : node -> sphase -> list nlog -> Prop :=
| s_found : j_phase j = PLookup -> has_conn (j_conn j) n = true ->
    strans n w tx j n PDeliver [NFound w (j_conn j) true]
| s_absent : j_phase j = PLookup -> has_conn (j_conn j) n = false -> n_bcast n = true ->
    strans n w tx j n PRecord [NFound w (j_conn j) false]
| s_nowhere : j_phase j = PLookup -> has_conn (j_conn j) n = false -> n_bcast n = false ->
    strans n w tx j n (PDone RSent) [NFound w (j_conn j) false]
| s_write (ok : bool) : j_phase j = PDeliver ->
    strans n w tx j n (PDone (if ok then RSent else RSendError)) [NWrite w (j_conn j) (j_text j) ok]
| s_record : j_phase j = PRecord -> n_started n = true ->
    strans n w tx j (set_inbox n (n_inbox n ++ [MStatus (j_id j) (Pending (j_text j) (j_inform j))])) PPublish
      [NInbox w (MStatus (j_id j) (Pending (j_text j) (j_inform j)))]
| s_norecord : j_phase j = PRecord -> n_started n = false -> strans n w tx j n PPublish []
| s_publish : j_phase j = PPublish ->
    strans n w tx j (set_out n (n_out n ++ [MsgWs (ws_of n j)]))
      (if j_wait j then PRegister else PDone RSent) [NOut w (MsgWs (ws_of n j))]
| s_pubfail : j_phase j = PPublish -> strans n w tx j n (PDone RBroadcastError) [NOutFail w]
| s_register : j_phase j = PRegister -> n_started n = true ->
    strans n w tx j (set_inbox n (n_inbox n ++ [MWait (j_id j) tx])) PAwait [NInbox w (MWait (j_id j) tx)]
| s_noregister : j_phase j = PRegister -> n_started n = false -> strans n w tx j n (PDone RSent) [].

Lemma send_strans n w tx j ok n' j' l : send_step n w tx j ok = Some (n', j', l) ->
  exists p, j' = with_phase j p /\ strans n w tx j n' p l.
Proof.
  unfold send_step, to_worker. destruct (j_phase j) eqn:Ep.
  - intros H. inversion H; subst. eexists. split; [reflexivity|].
    destruct (has_conn (j_conn j) n') eqn:Eh; [now constructor|].
    destruct (n_bcast n') eqn:Eb; now constructor.
  - intros H. inversion H; subst. eexists. split; [reflexivity|]. now constructor.
  - destruct (n_started n) eqn:Es; intros H; inversion H; subst; eexists; (split; [reflexivity|]); now constructor.
  - destruct ok; intros H; inversion H; subst; eexists; (split; [reflexivity|]).
    + now apply s_publish.
    + now constructor.
  - destruct (n_started n) eqn:Es; intros H; inversion H; subst; eexists; (split; [reflexivity|]); now constructor.
  - discriminate.
  - discriminate.
Qed.

Definition resend_job (c id m : string) (inform : list string) : job :=
  {| j_conn := c; j_id := id; j_text := m; j_inform := inform; j_wait := false; j_phase := PLookup |}.
Definition call_job (c id m : string) (inform : list string) (wait : bool) : job :=
  {| j_conn := c; j_id := id; j_text := m; j_inform := inform; j_wait := wait; j_phase := PLookup |}.
Definition ack_who (node id : string) : who :=
  ByListener {| wm_conn := ""; wm_source := node; wm_inform := []; wm_id := id; wm_text := "" |}.
Definition is_done (p : sphase) : bool := match p with PDone _ => true | _ => false end.
Definition quiet (e : ack_log) : bool := match e with LDecide _ _ | LForget _ => true | _ => false end.

Inductive ntrans (n : node) : node -> list nlog -> list wrapped -> Prop :=
| t_add c : ntrans n (set_conns n (c :: n_conns n)) [NAdd c] []
| t_remove c : ntrans n (set_conns n (filter (fun x => negb (String.eqb c x)) (n_conns n))) [NRemove c] []
| t_start : n_bcast n = true -> ntrans n (set_started n true) [NStarted] []
| t_call c id text inform wait :
    ntrans n (set_jobs n (n_jobs n ++ [call_job c id text inform wait]))
      [NCall (length (n_jobs n)) c id text inform wait] []
| t_job k j sn p l : nth_error (n_jobs n) k = Some j -> strans n (ByCall k) k j sn p l ->
    ntrans n (set_jobs sn (set_nth k (with_phase j p) (n_jobs sn))) (l ++ returned k (with_phase j p)) []
| t_status id st rest now w' : n_inbox n = MStatus id st :: rest ->
    wstep (n_cf n) (n_worker n) (WRecv (MStatus id st) now) = Some (w', [LRecord id st now]) ->
    ntrans n (set_worker (set_inbox n rest) w') [NWorker (LRecord id st now)] []
| t_check_skip id tx rest m now : n_inbox n = MCheck id tx :: rest -> n_listener n = LChecking m ->
    wstep (n_cf n) (n_worker n) (WRecv (MCheck id tx) now) = Some (n_worker n, [LCheck id tx Received]) ->
    ntrans n (set_listener (set_worker (set_inbox n rest) (n_worker n)) LIdle) [NWorker (LCheck id tx Received); NSkip m] []
| t_check_go id tx rest m st now : n_inbox n = MCheck id tx :: rest -> n_listener n = LChecking m -> st <> Received ->
    wstep (n_cf n) (n_worker n) (WRecv (MCheck id tx) now) = Some (n_worker n, [LCheck id tx st]) ->
    ntrans n (set_listener (set_worker (set_inbox n rest) (n_worker n)) (LLookup m)) [NWorker (LCheck id tx st)] []
| t_check_none id tx rest st now : n_inbox n = MCheck id tx :: rest -> (forall m, n_listener n <> LChecking m) ->
    wstep (n_cf n) (n_worker n) (WRecv (MCheck id tx) now) = Some (n_worker n, [LCheck id tx st]) ->
    ntrans n (set_worker (set_inbox n rest) (n_worker n)) [NWorker (LCheck id tx st)] []
| t_wait id tx rest now w' : n_inbox n = MWait id tx :: rest ->
    wstep (n_cf n) (n_worker n) (WRecv (MWait id tx) now) = Some (w', []) ->
    ntrans n (set_worker (set_inbox n rest) w') [] []
| t_quiet ev w' es : wstep (n_cf n) (n_worker n) ev = Some (w', es) -> (forall m now, ev <> WRecv m now) ->
    forallb quiet es = true ->
    ntrans n (set_worker n w') (map NWorker es) []
| t_action a w' : wstep (n_cf n) (n_worker n) WSend = Some (w', [LAction a]) ->
    ntrans n (set_actions (set_worker n w') (n_actions n ++ [a])) [NWorker (LAction a)] []
| t_answer i id tx st w' j : wstep (n_cf n) (n_worker n) (WPoll i) = Some (w', [LWait id tx st]) ->
    nth_error (w_waits (n_worker n)) i = Some (id, tx) ->
    nth_error (n_jobs n) tx = Some j -> j_phase j = PAwait ->
    ntrans n (set_jobs (set_worker n w') (set_nth tx (with_phase j (PDone (match st with Received => RSent | _ => RLost end))) (n_jobs n)))
      [NWorker (LWait id tx st); NReturn tx (match st with Received => RSent | _ => RLost end)] []
| t_noanswer i id tx st w' : wstep (n_cf n) (n_worker n) (WPoll i) = Some (w', [LWait id tx st]) ->
    nth_error (w_waits (n_worker n)) i = Some (id, tx) ->
    (forall j, nth_error (n_jobs n) tx = Some j -> j_phase j <> PAwait) ->
    ntrans n (set_worker n w') [NWorker (LWait id tx st)] []
| t_resend c id m inform rest : n_consumer n = CIdle -> n_started n = true -> n_actions n = Resend c id m inform :: rest ->
    ntrans n (set_consumer (set_actions n rest) (CSend (resend_job c id m inform))) [] []
| t_lost id clients rest : n_consumer n = CIdle -> n_started n = true -> n_actions n = ActLost id clients :: rest ->
    ntrans n (set_consumer (set_actions n rest) (CLost id clients)) [] []
| t_csend j sn p l : n_consumer n = CSend j -> strans n ByResend 0 j sn p l ->
    ntrans n (set_consumer sn (if is_done p then CIdle else CSend (with_phase j p))) l []
| t_informed id : n_consumer n = CLost id [] -> ntrans n (set_consumer n CIdle) [] []
| t_inform id c todo (ok : bool) : n_consumer n = CLost id (c :: todo) -> has_conn c n = true ->
    ntrans n (set_consumer n (if ok then CLost id todo else CDead)) [NWriteLost c id ok] []
| t_elsewhere id c todo : n_consumer n = CLost id (c :: todo) -> has_conn c n = false ->
    ntrans n (set_consumer n (CLost id todo)) [] []
| t_hear_check m rest : n_listener n = LIdle -> n_in n = MsgWs m :: rest -> n_started n = true ->
    ntrans n (set_listener (set_inbox (set_in n rest) (n_inbox n ++ [MCheck (wm_id m) 0])) (LChecking m))
      [NHear (MsgWs m); NInbox (ByListener m) (MCheck (wm_id m) 0)] []
| t_hear m rest : n_listener n = LIdle -> n_in n = MsgWs m :: rest -> n_started n = false ->
    ntrans n (set_listener (set_in n rest) (LLookup m)) [NHear (MsgWs m)] []
| t_hear_ack node id rest : n_listener n = LIdle -> n_in n = MsgAck node id :: rest -> n_started n = true ->
    ntrans n (set_inbox (set_in n rest) (n_inbox n ++ [MStatus id Received]))
      [NHear (MsgAck node id); NInbox (ack_who node id) (MStatus id Received)] []
| t_hear_ack_off node id rest : n_listener n = LIdle -> n_in n = MsgAck node id :: rest -> n_started n = false ->
    ntrans n (set_in n rest) [NHear (MsgAck node id)] []
| t_lfound m : n_listener n = LLookup m -> has_conn (wm_conn m) n = true ->
    ntrans n (set_listener n (LDeliver m)) [NFound (ByListener m) (wm_conn m) true] []
| t_labsent m : n_listener n = LLookup m -> has_conn (wm_conn m) n = false ->
    ntrans n (set_listener n LIdle) [NFound (ByListener m) (wm_conn m) false] []
| t_ldeliver m (ok : bool) : n_listener n = LDeliver m ->
    ntrans n (set_listener n (LAck m)) [NWrite (ByListener m) (wm_conn m) (wm_text m) ok] []
| t_lack m : n_listener n = LAck m -> n_bcast n = true ->
    ntrans n (set_listener (set_out n (n_out n ++ [MsgAck (wm_source m) (wm_id m)])) LIdle)
      [NOut (ByListener m) (MsgAck (wm_source m) (wm_id m))] []
| t_lackfail m : n_listener n = LAck m -> n_bcast n = true -> ntrans n (set_listener n LIdle) [NOutFail (ByListener m)] []
| t_lacknone m : n_listener n = LAck m -> n_bcast n = false -> ntrans n (set_listener n LIdle) [] []
| t_forward m rest (ok : bool) : n_out n = m :: rest ->
    ntrans n (set_out n rest) [NForward {| wr_source := n_bus n; wr_message := m |} ok]
      (if ok then [{| wr_source := n_bus n; wr_message := m |}] else [])
| t_take w rest : n_sub n = w :: rest ->
    ntrans n (set_in (set_sub n rest) (n_in n ++ if relevant (n_bus n) w then [wr_message w] else [])) [NTake w] [].

Lemma on_worker_quiet n es : forallb quiet es = true -> on_worker_logs n es = (n, map NWorker es).
Proof.
  revert n. induction es as [|e es IH]; intros n H; [reflexivity|]. cbn in H. apply andb_prop in H. destruct H as [He Hs].
  cbn. destruct e; try discriminate; cbn; rewrite IH by assumption; reflexivity.
Qed.

Lemma quiet_decides now acts : forallb quiet (map (LDecide now) acts) = true.
Proof. induction acts; auto. Qed.

Lemma nstep_trans n ev n' l ws : nstep n ev = Some (n', l, ws) -> ntrans n n' l ws.
Proof.
  destruct ev as [c|c| |c id text inform wait|k ok|now|wev|ok|ok|ok| ]; cbn [nstep].
  - intros H; inversion H; subst. constructor.
  - intros H; inversion H; subst. constructor.
  - destruct (n_bcast n) eqn:E; [|discriminate]. intros H; inversion H; subst. now constructor.
  - intros H; inversion H; subst. apply t_call.
  - destruct (nth_error (n_jobs n) k) as [j|] eqn:Ek; [|discriminate].
    destruct (send_step n (ByCall k) k j ok) as [[[sn j'] l']|] eqn:Es; [|discriminate].
    intros H; inversion H; subst. apply send_strans in Es. destruct Es as (p & -> & Hs). now apply t_job.
  - destruct (n_inbox n) as [|m rest] eqn:Ei; [discriminate|].
    destruct m as [id st|id tx|id tx]; cbn [wstep].
    + cbn. intros H; inversion H; subst. eapply t_status with (now := now); [exact Ei|reflexivity].
    + cbn. destruct (n_listener n) as [|m| | |] eqn:El;
        try (intros H; inversion H; subst; eapply t_check_none with (now := now); [exact Ei|congruence|reflexivity]).
      destruct (check_answer (w_acks (n_worker n)) id) as [msg cl| |] eqn:Ec;
        intros H; inversion H; subst.
      * eapply (t_check_go n id tx rest m (Pending msg cl) now); [exact Ei|exact El|discriminate|cbn; rewrite Ec; reflexivity].
      * eapply t_check_skip with (now := now); [exact Ei|exact El|cbn; rewrite Ec; reflexivity].
      * eapply (t_check_go n id tx rest m Lost now); [exact Ei|exact El|discriminate|cbn; rewrite Ec; reflexivity].
    + cbn. intros H; inversion H; subst. eapply t_wait with (now := now); [exact Ei|reflexivity].
  - destruct wev as [m now|now| | | |i]; try discriminate.
    + destruct (wstep (n_cf n) (n_worker n) (WTick now)) as [[w' es]|] eqn:Ew; [|discriminate].
      assert (es = []) by (cbn in Ew; destruct (w_ticker (n_worker n)); congruence). subst es. cbn.
      intros H; inversion H; subst. apply (t_quiet n (WTick now) w' []); [exact Ew|discriminate|reflexivity].
    + destruct (wstep (n_cf n) (n_worker n) WScan) as [[w' es]|] eqn:Ew; [|discriminate].
      assert (Q: forallb quiet es = true).
      { cbn in Ew. destruct (w_ticker (n_worker n)); try discriminate. inversion Ew; subst. apply quiet_decides. }
      rewrite (on_worker_quiet _ _ Q). intros H; inversion H; subst. eapply t_quiet; [exact Ew|discriminate|exact Q].
    + destruct (wstep (n_cf n) (n_worker n) WSend) as [[w' es]|] eqn:Ew; [|discriminate].
      assert (Q: exists a, es = [LAction a]).
      { cbn in Ew. destruct (w_ticker (n_worker n)) as [| |[|a rest]|]; try discriminate. inversion Ew; subst. eauto. }
      destruct Q as (a & ->). cbn. intros H; inversion H; subst. now apply t_action.
    + destruct (wstep (n_cf n) (n_worker n) WForget) as [[w' es]|] eqn:Ew; [|discriminate].
      assert (Q: exists i, es = [LForget i]).
      { cbn in Ew. destruct (w_ticker (n_worker n)) as [| | |i rest]; try discriminate. inversion Ew; subst. eauto. }
      destruct Q as (i & ->). cbn. intros H; inversion H; subst.
      apply (t_quiet n WForget w' [LForget i]); [exact Ew|discriminate|reflexivity].
    + destruct (wstep (n_cf n) (n_worker n) (WPoll i)) as [[w' es]|] eqn:Ew; [|discriminate].
      assert (Q: es = [] \/ exists id tx st, es = [LWait id tx st] /\ nth_error (w_waits (n_worker n)) i = Some (id, tx)).
      { cbn in Ew. destruct (nth_error (w_waits (n_worker n)) i) as [[id tx]|]; [|discriminate].
        destruct (wait_answer (w_acks (n_worker n)) id); inversion Ew; subst; eauto 8. }
      destruct Q as [->|(id & tx & st & -> & Hn)].
      * cbn. intros H; inversion H; subst. apply (t_quiet n (WPoll i) w' []); [exact Ew|discriminate|reflexivity].
      * cbn. destruct (nth_error (n_jobs n) tx) as [j|] eqn:Ej.
        2:{ intros H; inversion H; subst. eapply t_noanswer; [exact Ew|exact Hn|congruence]. }
        destruct (j_phase j) eqn:Ep;
          try (intros H; inversion H; subst; eapply t_noanswer; [exact Ew|exact Hn|congruence]).
        intros H; inversion H; subst. eapply t_answer; eauto.
  - destruct (n_consumer n) as [|j|id [|c todo]|] eqn:Ec; try discriminate.
    + destruct (n_started n) eqn:Es; [|discriminate].
      destruct (n_actions n) as [|[c id m inform|id cl] rest] eqn:Ea; try discriminate; intros H; inversion H; subst.
      * now apply t_resend.
      * now apply t_lost.
    + destruct (send_step n ByResend 0 j ok) as [[[sn j'] l']|] eqn:Es; [|discriminate].
      intros H; inversion H; subst. apply send_strans in Es. destruct Es as (p & -> & Hs). cbn.
      replace (match p with PDone _ => CIdle | _ => CSend (with_phase j p) end)
        with (if is_done p then CIdle else CSend (with_phase j p)) by (destruct p; reflexivity).
      now apply t_csend.
    + intros H; inversion H; subst. now apply (t_informed n id).
    + destruct (has_conn c n) eqn:Eh; intros H; inversion H; subst.
      * now apply t_inform.
      * now apply (t_elsewhere n id c).
  - unfold to_worker. destruct (n_listener n) as [|m|m|m|m] eqn:El; try discriminate.
    + destruct (n_in n) as [|[m|node id] rest] eqn:Ei; try discriminate; cbn; destruct (n_started n) eqn:Es;
        intros H; inversion H; subst.
      * now apply t_hear_check.
      * now apply t_hear.
      * now apply (t_hear_ack n node id).
      * now apply (t_hear_ack_off n node id).
    + destruct (has_conn (wm_conn m) n) eqn:Eh; intros H; inversion H; subst.
      * now apply t_lfound.
      * now apply (t_labsent n m).
    + intros H; inversion H; subst. now apply t_ldeliver.
    + destruct (n_bcast n) eqn:Eb; [destruct ok|]; intros H; inversion H; subst.
      * now apply t_lack.
      * now apply t_lackfail.
      * now apply (t_lacknone n m).
  - destruct (n_out n) as [|m rest] eqn:Eo; [discriminate|]. intros H; inversion H; subst. now apply t_forward.
  - destruct (n_sub n) as [|w rest] eqn:Eo; [discriminate|]. intros H; inversion H; subst. now apply t_take.
Qed.

(** Histories of one node *)
Inductive nhist : node -> list nlog -> Prop :=
| nh_new name bus bcast cf : nhist (new_node name bus bcast cf) []
| nh_step n l n' out ws : nhist n l -> ntrans n n' out ws -> nhist n' (l ++ out)
| nh_publish n l ws : nhist n l -> nhist (publish ws n) l.

Lemma on_node_app i a b : on_node i (a ++ b) = on_node i a ++ on_node i b.
Proof. unfold on_node. now rewrite filter_app, map_app. Qed.
Lemma on_node_own i l : on_node i (map (fun e => (i, e)) l) = l.
Proof. induction l as [|e l IH]; cbn; [reflexivity|]. rewrite Nat.eqb_refl. cbn. now rewrite <- IH at 2. Qed.
Lemma on_node_other i j l : j <> i -> on_node i (map (fun e => (j, e)) l) = [].
Proof.
  intros H. induction l as [|e l IH]; cbn; [reflexivity|]. rewrite (proj2 (Nat.eqb_neq j i) H). exact IH.
Qed.
Lemma on_node_In i log e : In e (on_node i log) <-> In (i, e) log.
Proof.
  unfold on_node. rewrite in_map_iff. split.
  - intros ([j x] & <- & H). apply filter_In in H. destruct H as [H E]. cbn in E. apply Nat.eqb_eq in E. now subst.
  - intros H. exists (i, e). split; [reflexivity|]. apply filter_In. split; [exact H|]. apply Nat.eqb_refl.
Qed.

Lemma crun_app evs1 evs2 c log : crun c log (evs1 ++ evs2) =
  match crun c log evs1 with Some (c', log') => crun c' log' evs2 | None => None end.
Proof.
  revert c log. induction evs1 as [|[i e] evs1 IH]; intros; cbn; [reflexivity|].
  destruct (cstep c i e) as [[c' out]|]; auto.
Qed.

Lemma creachable_ind' c0 (P : cluster -> list (nat * nlog) -> Prop) :
  P c0 [] ->
  (forall c log i ev n' l ws, creachable c0 c log -> P c log -> (i < cl_size c)%nat ->
     nstep (cl_node c i) ev = Some (n', l, ws) ->
     P {| cl_size := cl_size c; cl_node := fun j => publish ws (if Nat.eqb j i then n' else cl_node c j) |}
       (log ++ map (fun e => (i, e)) l)) ->
  forall c log, creachable c0 c log -> P c log.
Proof.
  intros H0 HS c log (F & evs & H). revert c log H.
  induction evs as [|[i ev] evs IH] using rev_ind; intros c log H.
  - inversion H; subst; exact H0.
  - rewrite crun_app in H. destruct (crun c0 [] evs) as [[c1 l1]|] eqn:E; [|discriminate].
    cbn in H. unfold cstep in H. destruct (Nat.ltb_spec i (cl_size c1)) as [Hi|]; [|discriminate].
    destruct (nstep (cl_node c1 i) ev) as [[[n' l] ws]|] eqn:E2; [|discriminate]. inversion H; subst.
    apply (HS c1 l1 i ev n' l ws); auto. split; [exact F|]. exists evs; exact E.
Qed.

Lemma creachable_node c0 c log : creachable c0 c log -> forall i, nhist (cl_node c i) (on_node i log).
Proof.
  intros R. pose proof R as (F & _). revert c log R.
  apply (creachable_ind' c0 (fun c log => forall i, nhist (cl_node c i) (on_node i log))).
  - intros i. destruct (F i) as (name & bus & bcast & cf & ->). constructor.
  - intros c log i ev n' l ws _ IH Hi Hs j. cbn [cl_node]. rewrite on_node_app. apply nh_publish.
    destruct (Nat.eqb_spec j i) as [->|Hne].
    + rewrite on_node_own. eapply nh_step; [apply IH|]. eapply nstep_trans; exact Hs.
    + rewrite on_node_other by congruence. rewrite app_nil_r. apply IH.
Qed.

Lemma creachable_step c0 c log i ev c' out : creachable c0 c log -> cstep c i ev = Some (c', out) -> creachable c0 c' (log ++ out).
Proof.
  intros (F & evs & H) Hs. split; [exact F|]. exists (evs ++ [(i, ev)]). rewrite crun_app, H. cbn. now rewrite Hs.
Qed.

Lemma publish_nil n : publish [] n = n.
Proof. unfold publish, set_sub. rewrite app_nil_r. destruct n; reflexivity. Qed.
