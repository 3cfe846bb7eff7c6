(** C157: what a client of a workflow application learns of a run that ended without a word *)
From Verif Require Import Base Json WfTypes StateMachineModel StateMachineSpec StateMachineProofs StateMachineMore StateMachineProps StateMachineEndSpec StateMachineEndProps StateMachineRecordProps
  ExecStoreModel ExecStoreSpec ExecStoreProofs WfAppModel WfAppSpec WfAppProofs WfSysModel WfSysSpec WfSysProofs WfSysProps.
Local Open Scope list_scope.

Section Props.
Variable cap : nat.
Context {T : Type}.
Variable render : T -> json -> json + render_error.
Variable extract : json -> string -> json + string.
Variable inject : json -> string -> json -> json + string.
Variable has_handler : string -> bool.
Variable wait_time : wait_config -> json -> Z -> N + (bool * option string * string).
Variable spec : workflow_spec T.
Notation YSTEP := (ystep cap T render extract inject has_handler wait_time spec).
Notation YRUN := (yrun cap T render extract inject has_handler wait_time spec).
Notation NEW := (sys_new T).

(** Refuted, that whoever asks for a run learns that it is over: after a run that has ended without
    announcing a completion, no event ever said that it completed, its record says that it is prepared or in
    progress, and no step of it can change that. *)
Theorem C157_silent_refuted : forall xs s m e c, YRUN NEW xs = Some s -> records_kept xs -> started_as s m e c -> only_run s m (we_id e) ->
  (forall t, t < length (c_threads T c) -> ended_thread c t) -> completions (effects (c_log T c)) = [] ->
  (exists r, holds (y_app T s) (we_id e) r /\ (we_status r = Preparing \/ we_status r = InProgress)) /\
  (forall x, ~ In (EvComplete x) (sent_by m (ap_events (y_app T s)))) /\ forall a, YSTEP s (AMachine m a) = None.
Proof.
  intros xs s m e c R K St U E N. destruct (C157_each_run _ _ _ _ _ _ _ _ _ _ _ R (proj2 St)) as (e' & input & now & St' & Fr & Rn & Ev).
  assert (e' = e) as -> by (destruct St as [X _], St' as [Y _]; congruence).
  assert (Re : reachable render extract inject has_handler wait_time spec e c) by (eexists; exact Rn).
  assert (I1 : we_states e = []) by apply Fr. assert (I2 : we_status e = Preparing) by apply Fr.
  destruct (C19_silent_record_refuted _ _ _ _ _ _ e c I1 ltac:(rewrite I2; intros [X|X]; discriminate) Re E N) as [Q1 Q2].
  split; [|split].
  - destruct (C157_record _ _ _ _ _ _ _ _ _ _ _ _ R K St U) as [(p & (a & o & b & P & Po & _) & H)|[_ H]].
    + eexists. split; [exact H|]. cbn. destruct o as [p' []| | | |]; try discriminate. injection Po as ->. apply (Q1 p true). rewrite P. apply in_elt.
    + eexists. split; [exact H|]. auto.
  - intros x I. rewrite Ev in I. unfold events_in in I. apply in_flat_map in I as (f & I & J). destruct f; cbn in J; try contradiction. destruct J as [->|[]].
    assert (X : completions (effects (c_log T c)) <> []) by (apply completions_in; eauto). contradiction.
  - intros a. cbn [ystep]. destruct St as [_ Sm]. rewrite Sm, Q2. now destruct (Nat.ltb m (y_gone T s)).
Qed.
End Props.

(** A run of the workflow of one state of type pass, read by a stream *)
Definition ex_silent : list sact := [ARequest (RStream "e1"); ARequest (RRun (Some "e1"%string) "u" ex_input 5 true)] ++ map (fun a => AMachine 0 (ex_act a)) to_call ++ [ARequest (RRead 0)].
Example C157_silent_nonvacuous : exists s (e : wf_execution) (c : config (option string)) (r : wf_execution), yrun 8 (option string) ex_render ex_extract ex_inject ex_handlers ex_wait ex_stub (sys_new _) ex_silent = Some s /\ records_kept ex_silent /\
  started_as s 0 e c /\ only_run s 0 (we_id e) /\ (forall t, t < length (c_threads _ c) -> ended_thread c t) /\ completions (effects (c_log _ c)) = [] /\
  holds (y_app _ s) (we_id e) r /\ we_status r = InProgress /\ length (sent_by 0 (ap_events (y_app _ s))) = 1.
Proof.
  unfold started_as. do 4 eexists. split; [vm_compute; reflexivity|]. split; [intros I; vm_compute in I; repeat (destruct I as [I|I]; [discriminate|]); exact I|].
  split; [split; vm_compute; reflexivity|]. split; [intros [|j] e H; vm_compute in H; [reflexivity|destruct j; discriminate]|].
  split; [intros [|t] L; [do 2 eexists; reflexivity|cbn in L; lia]|]. repeat split; vm_compute; reflexivity.
Qed.

Print Assumptions C157_silent_refuted.
