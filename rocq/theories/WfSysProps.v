(** Theorems on a whole workflow application: C157, C158.
    The theorems hold for every template engine, table of handlers, wait time function and capacity
    of the event channel; C157_deployed_refuted is on the workflow that the application is set up with. *)
From Verif Require Import Base Json WfTypes StateMachineModel StateMachineSpec StateMachineProofs StateMachineSeq StateMachineErr StateMachineMore StateMachineCases StateMachineProps
  ExecStoreModel ExecStoreSpec ExecStoreProofs WfAppModel WfAppSpec WfAppProofs WfSysModel WfSysSpec WfSysProofs.
Local Open Scope list_scope.

Section Props.
Variable cap : nat.
Context {T : Type}.
Variable render : T -> json -> json + render_error.
Variable extract : json -> string -> json + string.
Variable inject : json -> string -> json -> json + string.
Variable has_handler : string -> bool.
Variable wait_time : wait_config -> json -> Z -> N + (bool * option string * string).
Variable spec : workflow_spec T.
Notation RUN := (sm_run T render extract inject has_handler wait_time spec).
Notation REACH := (reachable render extract inject has_handler wait_time spec).
Notation CHAIN := (chain render extract inject has_handler spec).
Notation YSTEP := (ystep cap T render extract inject has_handler wait_time spec).
Notation YRUN := (yrun cap T render extract inject has_handler wait_time spec).
Notation NEW := (sys_new T).

(** C157: in every history, each accepted run is one execution of the workflow, from a new record on;
    what is broadcast for it is what that execution announced, in order, whatever others do. *)
Theorem C157_each_run : forall xs s m c, YRUN NEW xs = Some s -> nth_error (y_machines T s) m = Some c ->
  exists e input now, started_as s m e c /\ fresh_execution (we_id e) input now e
    /\ RUN (sm_init T spec e) (own m xs) = Some c /\ sent_by m (ap_events (y_app T s)) = events_in (effects (c_log T c)).
Proof.
  intros xs s m c R N. destruct (mach_inv _ _ _ _ _ _ _ _ _ R) as (_ & _ & _ & A). destruct (A _ _ N) as (e & E & Rn & Ev & input & now & F).
  exists e, input, now. split; [split; assumption|]. split; [|auto]. rewrite F. repeat split.
Qed.
(** C157: the record of an id that was used once is what its own execution saved last, or the first
    one while it has saved nothing. *)
Theorem C157_record : forall xs s m e c, YRUN NEW xs = Some s -> records_kept xs -> started_as s m e c -> only_run s m (we_id e) ->
  (exists p, StateMachineSpec.stored (effects (c_log T c)) p /\ holds (y_app T s) (we_id e) (ExecStoreSpec.stored (we_id e) p))
  \/ (nothing_saved (effects (c_log T c)) /\ holds (y_app T s) (we_id e) e).
Proof.
  intros xs s m e c R K (N1 & N2) U. pose proof (recs_inv _ _ _ _ _ _ _ _ _ R K m e c N1 N2 U) as H. destruct (last_value saved_by None (effects (c_log T c))) as [p|] eqn:L.
  - left. exists p. split; [apply last_value_assigned in L; exact L|exact H].
  - right. split; [|exact H]. intros p I. apply in_split in I. destruct I as (a & b & E). rewrite E, last_value_app in L. cbn [last_value saved_by] in L. clear -L. revert L. generalize p. induction b as [|f b IH]; intros q L; cbn [last_value] in L; [discriminate|]. destruct (saved_by f); eapply IH; exact L.
Qed.
(** C157: a stream that was opened before a run was accepted and has been read to the end has
    carried everything that run announced, in order (among the events of others). *)
Theorem C157_stream : forall xs ys s1 s m c st id, YRUN NEW xs = Some s1 -> YRUN s1 (ARequest (RStream id) :: ys) = Some s ->
  length (y_machines T s1) <= m -> nth_error (y_machines T s) m = Some c ->
  nth_error (ap_streams (y_app T s)) (length (ap_streams (y_app T s1))) = Some st -> behind (y_app T s) st = 0 ->
  exists src, sm_sent st = map snd src /\ sent_by m src = events_in (effects (c_log T c)).
Proof.
  intros xs ys s1 s m c st id R1 R2 G N NS B. pose proof R2 as R2'. cbn [yrun ystep act_of step fst] in R2.
  edestruct (stream_inv cap render extract inject has_handler wait_time spec ys (length (ap_events (y_app T s1))) (length (ap_streams (y_app T s1)))) as (st' & N' & (Rd1 & Rd2) & new & EV); [exact R2| | |].
  { cbn [y_app ap_streams]. rewrite nth_error_app2, Nat.sub_diag by lia. reflexivity. }
  { cbn [y_app ap_events]. apply opened_reads. }
  rewrite NS in N'. injection N' as <-. cbn [y_app ap_events] in EV. unfold behind in B.
  assert (R : YRUN NEW (xs ++ ARequest (RStream id) :: ys) = Some s) by (rewrite yrun_app, R1; exact R2').
  destruct (mach_inv _ _ _ _ _ _ _ _ _ R) as (_ & _ & _ & A). destruct (A _ _ N) as (e & _ & _ & Ev & _).
  destruct (mach_inv _ _ _ _ _ _ _ _ _ R1) as (_ & _ & O & _). destruct (O m G) as (_ & O2).
  exists new. split.
  - rewrite Rd2, EV, skipn_app, skipn_all, Nat.sub_diag. cbn [app skipn]. rewrite firstn_all2; [reflexivity|]. rewrite EV, app_length in B. lia.
  - rewrite <- Ev, EV, sent_app, O2. reflexivity.
Qed.

(** C157: a workflow of steps linked by [next] up to one marked [end], run once under its id: at any
    time the handlers called are the first of the sequence; as long as the process lives it can go on;
    and when it is over the record shows success with every step's outcome, and that was announced. *)
Theorem C157_sequence : forall xs s m e c outs cs final, YRUN NEW xs = Some s -> records_kept xs -> started_as s m e c -> only_run s m (we_id e) ->
  CHAIN (ws_start_at spec) (we_input e) outs cs final ->
  saves_succeed (own m xs) -> is_prefix (handler_answers (own m xs)) (answered outs) ->
  let fs := effects (c_log T c) in
  is_prefix (calls fs) cs /\
  ((lives s m -> exists a s', YSTEP s (AMachine m a) = Some s' /\ saves_succeed [a] /\ is_prefix (handler_answers (own m xs ++ [a])) (answered outs))
   /\ length (own m xs) < 9 * length cs + 3
   \/ length (own m xs) = 9 * length cs + 3 /\ calls fs = cs
      /\ exists r done es, holds (y_app T s) (we_id e) r /\ we_status r = Succeeded /\ Forall2 finished (we_states r) (combine cs outs)
           /\ sent_by m (ap_events (y_app T s)) = es ++ [EvComplete done] /\ we_status done = Succeeded).
Proof.
  intros xs s m e c outs cs final R K (N1 & N2) U CH SV HA fs. destruct (mach_inv _ _ _ _ _ _ _ _ _ R) as (_ & _ & _ & A). destruct (A _ _ N2) as (e' & E' & Rn & Ev & input & now & F). rewrite N1 in E'. injection E' as <-.
  assert (W : we_states e = []) by (rewrite F; reflexivity).
  destruct (C13_sequential_order render extract inject has_handler wait_time spec e (own m xs) c outs cs final W CH Rn SV HA) as (P & _ & _ & D). split; [exact P|].
  destruct D as [(L & a & c' & S & S1 & S2)|(L & C & _ & f0 & d & E & _ & Ws & Fn)].
  - left. split; [|exact L]. intros G. cbn [ystep]. unfold lives in G. apply Nat.ltb_ge in G. exists a. rewrite G, N2, S. eexists. split; [reflexivity|]. auto.
  - right. split; [exact L|]. split; [exact C|]. exists (execution_of (we_id e) (payload_of d)), d, (events_in f0). split; [|split; [exact Ws|split; [exact Fn|split; [|exact Ws]]]].
    + pose proof (recs_inv _ _ _ _ _ _ _ _ _ R K m e c N1 N2 U) as H. unfold effects in E, H. rewrite E, last_value_app in H. exact H.
    + rewrite Ev, E, events_app. reflexivity.
Qed.
(** Such an execution can always be completed. *)
Lemma completes e outs cs final : we_states e = [] -> CHAIN (ws_start_at spec) (we_input e) outs cs final ->
  forall k, k <= 9 * length cs + 3 -> exists acts c, length acts = k /\ RUN (sm_init T spec e) acts = Some c /\ saves_succeed acts /\ is_prefix (handler_answers acts) (answered outs).
Proof.
  intros W CH. induction k as [|k IH]; intros L.
  - exists [], (sm_init T spec e). repeat split; [constructor|]. exists (answered outs). reflexivity.
  - destruct IH as (acts & c & Lk & Rn & SV & HA); [lia|]. destruct (C13_sequential_order render extract inject has_handler wait_time spec e acts c outs cs final W CH Rn SV HA) as (_ & _ & _ & [(_ & a & c' & S & S1 & S2)|(L' & _)]); [|lia].
    exists (acts ++ [a]), c'. split; [rewrite app_length; cbn; lia|]. split; [rewrite sm_run_app, Rn; cbn [sm_run]; rewrite S; reflexivity|]. split; [|exact S2]. unfold saves_succeed in *. apply Forall_app. auto.
Qed.

(** C158, refuted: when the process stops, an execution that is not over never goes on: in every
    continuation it does nothing more, and its record stays what it was. *)
Theorem C158_interrupted_refuted : forall xs s m e c ys s', YRUN NEW (xs ++ [AStop true]) = Some s -> started_as s m e c -> YRUN s ys = Some s' ->
  started_as s' m e c /\ (not_run_again (we_id e) ys -> records_kept ys -> forall r, holds (y_app T s) (we_id e) r -> holds (y_app T s') (we_id e) r).
Proof.
  intros xs s m e c ys s' R A R'. rewrite yrun_app in R. destruct (YRUN NEW xs) as [s0|] eqn:R0; [|discriminate]. destruct (mach_inv _ _ _ _ _ _ _ _ _ R0) as (L & _). injection R as <-.
  destruct A as (A1 & A2). cbn [y_app ap_machines y_machines] in A1, A2. split.
  - eapply gone_inv; [exact R'|exact L| |split; assumption]. cbn [y_gone]. apply nth_error_Some. congruence.
  - intros NR K r H. eapply quiet_inv in R'; [|split; [exact L|]|exact NR].
    + destruct R' as (_ & [E|(I & _)]); [|contradiction]. unfold holds in *. rewrite E. exact H.
    + cbn [y_gone y_app ap_machines]. intros j e' G Nj. assert (j < length (ap_machines (y_app T s0))) by (apply nth_error_Some; congruence). lia.
Qed.
(** C158, refuted: with the execution service that comes with the runtime, there is no record either. *)
Theorem C158_forgotten_refuted : forall xs s m e c ys s', YRUN NEW (xs ++ [AStop false]) = Some s -> started_as s m e c -> YRUN s ys = Some s' ->
  not_run_again (we_id e) ys -> started_as s' m e c /\ forall r, ~ holds (y_app T s') (we_id e) r.
Proof.
  intros xs s m e c ys s' R A R' NR. rewrite yrun_app in R. destruct (YRUN NEW xs) as [s0|] eqn:R0; [|discriminate]. destruct (mach_inv _ _ _ _ _ _ _ _ _ R0) as (L & _). injection R as <-.
  destruct A as (A1 & A2). cbn [y_app ap_machines y_machines] in A1, A2. split.
  - eapply gone_inv; [exact R'|exact L| |split; assumption]. cbn [y_gone]. apply nth_error_Some. congruence.
  - intros r H. eapply quiet_inv in R'; [|split; [exact L|]|exact NR].
    + unfold holds in H. destruct R' as (_ & [E|(I & E)]); rewrite E in H; discriminate.
    + cbn [y_gone y_app ap_machines]. intros j e' G Nj. assert (j < length (ap_machines (y_app T s0))) by (apply nth_error_Some; congruence). lia.
Qed.
(** C158, refuted: asking for it again under its id begins at the start: the steps that were done
    before the stop are done again. *)
Theorem C158_again_refuted : forall xs s m e c keeps uuid now outs cs final, YRUN NEW (xs ++ [AStop keeps]) = Some s -> started_as s m e c ->
  CHAIN (ws_start_at spec) (we_input e) outs cs final ->
  exists ys s' e' c', YRUN s (ARequest (RRun (Some (we_id e)) uuid (we_input e) now true) :: ys) = Some s'
    /\ started_as s' m e c /\ started_as s' (length (y_machines T s)) e' c' /\ we_id e' = we_id e
    /\ calls (effects (c_log T c')) = cs /\ (forall x, In x ys -> exists a, x = AMachine (length (y_machines T s)) a).
Proof.
  intros xs s m e c keeps uuid now outs cs final R A CH. assert (R' := R). destruct (mach_inv _ _ _ _ _ _ _ _ _ R') as (L & G & _). rewrite yrun_app in R. destruct (YRUN NEW xs) as [s0|] eqn:R0; [|discriminate]. injection R as E.
  assert (GE : y_gone T s = length (y_machines T s)) by (rewrite <- E; reflexivity). set (e' := execution_of (we_id e) (first_payload (we_input e) now)).
  destruct (completes e' outs cs final eq_refl CH (9 * length cs + 3) (le_n _)) as (acts & c' & La & Rn & SV & HA).
  destruct (C13_sequential_order render extract inject has_handler wait_time spec e' acts c' outs cs final eq_refl CH Rn SV HA) as (_ & _ & _ & [(? & _)|(_ & C & _)]); [lia|].
  set (s1 := mk_sys T (fst (step cap (y_app T s) (PostRun (Some (we_id e)) uuid (we_input e) now true))) (y_gone T s) (y_machines T s ++ [sm_init T spec e'])).
  assert (S1 : YSTEP s (ARequest (RRun (Some (we_id e)) uuid (we_input e) now true)) = Some s1) by reflexivity.
  destruct (drive_machine cap render extract inject has_handler wait_time spec acts s1 (length (y_machines T s)) (sm_init T spec e') c') as (s' & Y & N' & M' & _ & O').
  - cbn [s1 y_gone]. lia.
  - cbn [s1 y_machines]. rewrite nth_error_app2, Nat.sub_diag by lia. reflexivity.
  - exact Rn.
  - assert (MA : ap_machines (y_app T s1) = ap_machines (y_app T s) ++ [e']) by reflexivity. destruct A as (A1 & A2). assert (m < length (y_machines T s)) by (apply nth_error_Some; congruence).
    exists (map (AMachine (length (y_machines T s))) acts), s', e', c'. split; [cbn [yrun]; rewrite S1; exact Y|]. split; [|split; [|split; [reflexivity|split; [exact C|]]]].
    + split; [rewrite M', MA; apply nth_error_app1_some; exact A1|]. rewrite O' by lia. cbn [s1 y_machines]. rewrite nth_error_app1; [exact A2|assumption].
    + split; [|exact N']. rewrite M', MA, L, nth_error_app2, Nat.sub_diag by lia. reflexivity.
    + intros x I. apply in_map_iff in I. destruct I as (a & <- & _). eauto.
Qed.
(** C158, refuted: an answer that streams events breaks off when the process stops, and its client is
    sent nothing more, whatever follows. *)
Theorem C158_streams_refuted : forall xs keeps s k st ys s', YRUN NEW xs = Some s -> nth_error (ap_streams (y_app T s)) k = Some st -> YRUN s (AStop keeps :: ys) = Some s' ->
  exists st', nth_error (ap_streams (y_app T s')) k = Some st' /\ sm_sent st' = sm_sent st /\ sm_broken st' = true.
Proof.
  intros xs keeps s k st ys s' _ N R. cbn [yrun] in R. cbn [ystep] in R.
  set (s1 := mk_sys T _ _ _) in R. assert (N1 : nth_error (ap_streams (y_app T s1)) k = Some (cut st)) by (cbn; rewrite nth_error_map, N; reflexivity).
  exists (cut st). split; [|split; reflexivity]. clearbody s1. clear N. revert s1 N1 R. induction ys as [|y ys IH]; intros s1 N1 R; [now injection R as <-|].
  cbn [yrun] in R. destruct (YSTEP s1 y) as [s2|] eqn:S; [|discriminate]. refine (IH s2 _ R). clear IH R.
  destruct y as [r|m a|kp]; cbn [ystep] in S.
  - injection S as <-. cbn [y_app]. exact (steps_broken cap [act_of r] _ _ _ N1 eq_refl).
  - destruct (Nat.ltb _ _); [discriminate|]. destruct (nth_error (y_machines T s1) m) as [c|]; [|discriminate]. destruct (sm_step _ _ _ _ _ _ _ _ _) as [c'|]; [|discriminate]. injection S as <-. cbn [y_app]. exact (steps_broken cap _ _ _ _ N1 eq_refl).
  - injection S as <-. cbn. rewrite nth_error_map, N1. reflexivity.
Qed.
End Props.

(** C157, refuted: an application that is set up from a blueprint, whatever workflow that declares and
    whatever handlers are registered, runs nothing: no handler is ever called, no stream ever carries
    an event, and every record of a run says for ever that it is being prepared. *)
Lemma fresh_records cap render extract inject has_handler wait_time (spec : workflow_spec unit) ys : (forall e c, we_states e = [] -> reachable render extract inject has_handler wait_time spec e c -> c_log unit c = []) ->
  forall s, yrun cap unit render extract inject has_handler wait_time spec (sys_new unit) ys = Some s ->
  forall id r, holds (y_app unit s) id r -> exists input now, r = execution_of id (first_payload input now).
Proof.
  intros Q. induction ys as [|x ys IH] using rev_ind; intros s R id r H; [injection R as <-; discriminate|].
  assert (R' := R). rewrite yrun_app in R. destruct (yrun _ _ _ _ _ _ _ _ _ ys) as [s0|] eqn:R0; [|discriminate]. cbn [yrun] in R. destruct (ystep _ _ _ _ _ _ _ _ s0 x) as [s1|] eqn:S; [|discriminate]. injection R as <-.
  specialize (IH _ eq_refl id r). apply step_view in S. unfold holds in *. destruct S as [name uuid input now id' s1 I -> |r' s1 Nr H1 H2 H3 H4 H5 H6|j a c0 c' fs s1 G' Nm S' Lg -> |b s1 ->]; cbn [y_app ap_store] in H.
  - destruct (String.eqb_spec id' id) as [->|D]; [rewrite lookup_save in H; injection H as <-; eauto|]. rewrite get_other in H by exact D. auto.
  - rewrite H1 in H. auto.
  - destruct (mach_inv _ _ _ _ _ _ _ _ _ R') as (_ & _ & _ & A). cbn [y_machines] in A. specialize (A j c'). rewrite set_nth_nth, Nat.eqb_refl, Nm in A. destruct (A eq_refl) as (e & _ & Rn & _ & input & now & F).
    assert (Z : c_log unit c' = []) by (eapply (Q e); [rewrite F; reflexivity|eexists; exact Rn]). rewrite Z in Lg. symmetry in Lg. apply app_eq_nil in Lg. destruct Lg as (_ & Lg). destruct fs; [|discriminate]. apply IH. exact H.
  - destruct b; [auto|discriminate].
Qed.
Theorem C157_deployed_refuted : forall rs cf cap render extract inject has_handler wait_time xs s, collect rs = Some cf ->
  yrun cap unit render extract inject has_handler wait_time (wc_workflow cf) (sys_new unit) xs = Some s ->
  (forall m c, nth_error (y_machines unit s) m = Some c -> effects (c_log unit c) = [])
  /\ (forall k st, nth_error (ap_streams (y_app unit s)) k = Some st -> sm_sent st = [])
  /\ forall id r, holds (y_app unit s) id r -> we_status r = Preparing /\ we_status_detail r = "The execution is currently being prepared"%string /\ we_states r = [].
Proof.
  intros rs cf cap render extract inject has_handler wait_time xs s C R.
  assert (Q : forall e c, we_states e = [] -> reachable render extract inject has_handler wait_time (wc_workflow cf) e c -> c_log unit c = []).
  { intros e c W. apply C19_missing_start_state_refuted; [exact W|]. unfold collect in C. destruct (find _ rs); [|discriminate]. injection C as <-. reflexivity. }
  assert (A : forall m c, nth_error (y_machines unit s) m = Some c -> effects (c_log unit c) = []).
  { intros m c N. destruct (C157_each_run _ _ _ _ _ _ _ _ _ _ _ R N) as (e & input & now & _ & (_ & _ & _ & _ & _ & W & _) & Rn & _). rewrite (Q e c W); [reflexivity|]. eexists. exact Rn. }
  split; [exact A|]. split.
  - assert (EV : ap_events (y_app unit s) = []).
    { destruct (mach_inv _ _ _ _ _ _ _ _ _ R) as (_ & _ & O & M). destruct (ap_events (y_app unit s)) as [|[m ev] es] eqn:E; [reflexivity|]. exfalso.
      assert (Z : sent_by m ((m, ev) :: es) = []); [|unfold sent_by in Z; cbn in Z; rewrite Nat.eqb_refl in Z; discriminate].
      destruct (nth_error (y_machines unit s) m) as [c|] eqn:N; [|apply nth_error_None in N; destruct (O m N); assumption]. destruct (M _ _ N) as (e & _ & _ & Ev & _). rewrite Ev, (A _ _ N). reflexivity. }
    intros k st N. destruct (streams_read cap render extract inject has_handler wait_time (wc_workflow cf) xs s R k st N) as (n & _ & E). rewrite E, EV, skipn_nil, firstn_nil. reflexivity.
  - intros id r H. destruct (fresh_records _ _ _ _ _ _ _ _ Q _ R id r H) as (input & now & ->). repeat split.
Qed.

(** Cases that meet the hypotheses: a client opens a stream, two runs are asked for, one is completed
    and the other is stopped while its first handler works. *)
Definition ex_full : list StateMachineModel.answer := to_call ++ [AHandler (inl (JBool true)); n_; n_; s_] ++ to_call ++ [AHandler (inl JNull); n_; n_; s_; n_; s_; n_].
Definition ex_hist : list sact := [ARequest (RStream "e1"); ARequest (RRun (Some "e1"%string) "u" ex_input 5 true); ARequest (RRun None "e2"%string ex_input 6 true)]
  ++ map (fun a => AMachine 0 (ex_act a)) ex_full ++ map (fun a => AMachine 1 (ex_act a)) to_call ++ repeat (ARequest (RRead 0)) 5.
Notation ex_yrun := (yrun 8 (option string) ex_render ex_extract ex_inject ex_handlers ex_wait ex_spec).
Example C157_nonvacuous : exists s e1 c1 e2 c2 st r, ex_yrun (sys_new _) ex_hist = Some s /\ records_kept ex_hist
  /\ started_as s 0 e1 c1 /\ only_run s 0 (we_id e1) /\ started_as s 1 e2 c2 /\ we_id e1 = "e1"%string /\ we_id e2 = "e2"%string
  /\ chain ex_render ex_extract ex_inject ex_handlers ex_spec (ws_start_at ex_spec) (we_input e1) ex_outs ex_calls JNull
  /\ saves_succeed (own 0 ex_hist) /\ handler_answers (own 0 ex_hist) = answered ex_outs
  /\ holds (y_app _ s) "e1" r /\ we_status r = Succeeded /\ calls (effects (c_log _ c2)) = [("a"%string, ex_input)]
  /\ nth_error (ap_streams (y_app _ s)) 0 = Some st /\ behind (y_app _ s) st = 0 /\ length (sm_sent st) = 4.
Proof.
  unfold started_as. do 7 eexists. split; [vm_compute; reflexivity|]. split; [intros I; vm_compute in I; repeat (destruct I as [I|I]; [discriminate|]); exact I|].
  split; [split; vm_compute; reflexivity|]. split; [intros [|[|j]] e H; vm_compute in H; [reflexivity| |destruct j; discriminate]; injection H as <-; vm_compute; discriminate|].
  split; [split; vm_compute; reflexivity|]. split; [reflexivity|]. split; [reflexivity|]. split; [exact (proj1 C13_nonvacuous)|].
  split; [unfold saves_succeed; vm_compute; repeat constructor; discriminate|]. split; [vm_compute; reflexivity|]. split; [vm_compute; reflexivity|]. repeat split; vm_compute; reflexivity.
Qed.
Example C158_nonvacuous : exists s e2 c2 s' r, ex_yrun (sys_new _) (ex_hist ++ [AStop true]) = Some s /\ started_as s 1 e2 c2 /\ holds (y_app _ s) (we_id e2) r /\ we_status r = InProgress
  /\ ex_yrun s (ARequest (RRun (Some "e3"%string) "u" ex_input 9 true) :: map (fun a => AMachine 2 (ex_act a)) ex_full) = Some s' /\ lives s' 2
  /\ chain ex_render ex_extract ex_inject ex_handlers ex_spec (ws_start_at ex_spec) (we_input e2) ex_outs ex_calls JNull.
Proof.
  unfold started_as. do 5 eexists. split; [vm_compute; reflexivity|]. split; [split; vm_compute; reflexivity|]. split; [vm_compute; reflexivity|]. split; [reflexivity|]. split; [vm_compute; reflexivity|]. split; [vm_compute; constructor|exact (proj1 C13_nonvacuous)].
Qed.
Example C157_deployed_nonvacuous : exists cf s, collect [("w"%string, mk_wf_resource RWorkflow {| ws_start_at := "a"; ws_states := [("a"%string, mk_state_config ExecuteStep None None None None None (Some true) None None None None)] |})] = Some cf
  /\ yrun 8 unit (fun _ v => inl v) ex_extract ex_inject ex_handlers ex_wait (wc_workflow cf) (sys_new _) [ARequest (RRun (Some "e1"%string) "u" ex_input 5 true); AMachine 0 (ex_act ANothing); AMachine 0 (ex_act ANothing)] = Some s
  /\ length (y_machines _ s) = 1.
Proof. do 2 eexists. split; [reflexivity|]. split; [vm_compute; reflexivity|reflexivity]. Qed.

Print Assumptions C157_each_run.
Print Assumptions C157_record.
Print Assumptions C157_stream.
Print Assumptions C157_sequence.
Print Assumptions C157_deployed_refuted.
Print Assumptions C158_interrupted_refuted.
Print Assumptions C158_forgotten_refuted.
Print Assumptions C158_again_refuted.
Print Assumptions C158_streams_refuted.
