(** What happens when a handler fails (C15, C16, C19). *)
From Verif Require Import Base Json WfTypes StateMachineModel StateMachineSpec StateMachineProofs.
Open Scope string_scope.

Lemma error_matches_spec err l : error_matches err l = true <-> names_error err l.
Proof.
  unfold error_matches, names_error. destruct (existsb (String.eqb "*") l) eqn:E.
  - split; [|reflexivity]. intros _. left. apply existsb_exists in E. destruct E as (x & Hx & E).
    apply String.eqb_eq in E. now subst.
  - split.
    + intros H. right. apply existsb_exists in H. destruct H as (x & Hx & H). apply String.eqb_eq in H. now subst.
    + intros [H|H].
      * exfalso. assert (existsb (String.eqb "*") l = true); [|congruence]. apply existsb_exists. exists "*". split; [assumption|apply String.eqb_refl].
      * apply existsb_exists. exists err. split; [assumption|apply String.eqb_refl].
Qed.

Lemma find_first {R} (f : R -> list string) err rs r :
  List.find (fun x => error_matches err (f x)) rs = Some r <-> first_match (fun x => names_error err (f x)) rs r.
Proof.
  induction rs as [|x rs IH]; cbn.
  - split; [discriminate|]. intros (pre & post & E & _). destruct pre; discriminate.
  - destruct (error_matches err (f x)) eqn:E.
    + split.
      * intros H; inversion H; subst. exists [], rs. split; [reflexivity|]. split; [now apply error_matches_spec|]. intros ? [].
      * intros (pre & post & E' & H & Hn). destruct pre as [|y pre]; cbn in E'; inversion E'; subst; [reflexivity|].
        exfalso. apply (Hn y); [now left|]. now apply error_matches_spec.
    + rewrite IH. split.
      * intros (pre & post & -> & H & Hn). exists (x :: pre), post. split; [reflexivity|]. split; [assumption|].
        intros y [<-|Hy]; [|auto]. rewrite <- error_matches_spec. congruence.
      * intros (pre & post & E' & H & Hn). destruct pre as [|y pre]; cbn in E'; inversion E'; subst.
        -- exfalso. apply error_matches_spec in H. congruence.
        -- exists pre, post. split; [reflexivity|]. split; [assumption|]. intros z Hz. apply Hn. now right.
Qed.
Lemma find_no_match {R} (f : R -> list string) err rs :
  List.find (fun x => error_matches err (f x)) rs = None <-> forall x, In x rs -> ~ names_error err (f x).
Proof.
  split.
  - intros H x Hx N. apply error_matches_spec in N. pose proof (find_none _ _ H x Hx) as E. cbn in E. congruence.
  - intros H. destruct (List.find _ rs) as [r|] eqn:E; [|reflexivity]. apply find_some in E. destruct E as [E1 E2].
    exfalso. apply (H r E1). now apply error_matches_spec.
Qed.

Section Err.
  Context {T : Type}.
  Variable render : T -> json -> json + render_error.
  Variable extract : json -> string -> json + string.
  Variable inject : json -> string -> json -> json + string.
  Variable has_handler : string -> bool.
  Variable wait_time : wait_config -> json -> Z -> N + (bool * option string * string).
  Variable spec : workflow_spec T.
  Notation STEP := (step_pc T render extract inject has_handler wait_time spec).
  Notation SM_STEP := (sm_step T render extract inject has_handler wait_time spec).
  Notation RUN := (sm_run T render extract inject has_handler wait_time spec).
  Notation INV := (inv render extract has_handler spec).
  Notation REACH := (reachable render extract inject has_handler wait_time spec).

  Definition view (c : config T) (t : nat) (p : pc T) (r : option (option json)) : Prop :=
    nth_error (c_threads T c) t = Some {| th_pc := p; th_ret := r |}.
  Definition lands (t : nat) (o : outcome_of_step T) (p' : pc T) (r r' : option (option json)) : Prop :=
    r' = match r with Some x => Some x | None => o_ret T o end /\ p' = final_pc T r' (o_pc T o).

  Notation DRIVE := (drive render extract inject has_handler wait_time spec).

  Lemma drive_nil c t : DRIVE c t [] [] c.
  Proof. repeat split; [constructor|]. cbn. now rewrite app_nil_r. Qed.
  Lemma run_app acts1 : forall c acts2 c', RUN c (acts1 ++ acts2) = Some c' <->
    exists c1, RUN c acts1 = Some c1 /\ RUN c1 acts2 = Some c'.
  Proof.
    induction acts1 as [|a acts1 IH]; intros c acts2 c'; cbn.
    - split; [eauto|]. intros (c1 & H & H'). inversion H; subst; exact H'.
    - destruct (SM_STEP c a) as [c0|]; [apply IH|]. split; [discriminate|]. intros (c1 & H & _). discriminate.
  Qed.
  Lemma drive_app c t a1 f1 c1 a2 f2 c2 : DRIVE c t a1 f1 c1 -> DRIVE c1 t a2 f2 c2 ->
    DRIVE c t (a1 ++ a2) (f1 ++ f2) c2.
  Proof.
    intros (R1 & O1 & L1) (R2 & O2 & L2). split; [apply run_app; eauto|]. split; [apply Forall_app; auto|].
    rewrite L2, L1, map_app. now rewrite app_assoc.
  Qed.

  Lemma go c t p r now ans o : view c t p r -> STEP c t p now ans = Some o ->
    let r' := match r with Some x => Some x | None => o_ret T o end in
    exists c', DRIVE c t [ {| a_thread := t; a_now := now; a_answer := ans |} ] (o_effects T o) c'
      /\ view c' t (final_pc T r' (o_pc T o)) r'
      /\ c_exec T c' = o_exec T o /\ c_lock T c' = o_lock T o.
  Proof.
    intros V S r'. assert (Hlt : t < length (c_threads T c)) by (apply nth_error_Some; unfold view in V; congruence).
    eexists. split; [|split; [|split]].
    - unfold drive. cbn [sm_run]. unfold sm_step. cbn [a_thread a_now a_answer]. unfold view in V. rewrite V. cbn [th_pc]. rewrite S.
      cbn [th_ret]. split; [reflexivity|]. split; [repeat constructor|]. reflexivity.
    - unfold view. cbn [c_threads]. rewrite nth_error_app1 by (now rewrite set_nth_length).
      eapply nth_set_nth_eq. exact V.
    - reflexivity.
    - reflexivity.
  Qed.

  Lemma go_none c t p r now ans o : view c t p r -> STEP c t p now ans = Some o -> o_ret T o = None ->
    exists c', DRIVE c t [ {| a_thread := t; a_now := now; a_answer := ans |} ] (o_effects T o) c'
      /\ view c' t (final_pc T r (o_pc T o)) r
      /\ c_exec T c' = o_exec T o /\ c_lock T c' = o_lock T o.
  Proof.
    intros V S N. destruct (go c t p r now ans o V S) as (c' & D & V' & X & K). exists c'.
    rewrite N in V'. destruct r; auto.
  Qed.


  Definition matching_retry (cfg : state_config T) (err : string) : option retry_config :=
    match sc_retry cfg with
    | Some rs => List.find (fun r => error_matches err (rt_match_errors r)) rs
    | None => None
    end.
  Definition limit_zero (r : retry_config) : bool :=
    match rt_max_attempts r with Some m => (m <=? 0)%Z | None => false end.

  Definition fallback_of (k : err_kind) : option string :=
    match k with
    | InvalidResultPath => Some "InvalidResultPath"
    | InvalidOutputPath => Some "InvalidOutputPath"
    | ExecuteStepHandlerFailed => Some "HandlerFailed"
    | ParallelBranchesFailed => Some "ParallelBranchesFailed"
    | _ => None
    end.

  (** From an error that may be retried to its record. *)
  Lemma fail_from_error c t kind fb e input ret cfg (saved : option string) now :
    INV c -> view c t (PError T (kind, e) input) ret -> c_lock T c = None ->
    fallback_of kind = Some fb -> ei_parent e = None -> lookup (ei_state e) (ws_states spec) = Some cfg ->
    let name := ei_state e in
    let err := derive_final_error_name e fb in
    let retry := matching_retry cfg err in
    let exceeded := match retry with Some r => limit_zero r | None => false end in
    let can := match retry with Some _ => negb exceeded | None => false end in
    exists c' acts exec' s ret' attempts,
      DRIVE c t acts [FSave (payload_of exec') (match saved with None => true | Some _ => false end)] c'
      /\ handler_answers acts = []
      /\ (exists v, ret' = Some v)
      /\ view c' t (PRecordEvent T exec' s can (KRetryOrCatch e retry (sc_catch cfg) attempts exceeded input)) ret'
      /\ c_exec T c' = exec' /\ c_lock T c' = None
      /\ (can = false -> we_status exec' = Failed /\ we_status_detail exec' = error_detail name err (ei_msg e))
      /\ In s (we_states exec') /\ es_name s = name /\ es_status s = Failed
      /\ es_error s = Some (error_detail name err (ei_msg e)) /\ es_completed s = Some now
      /\ (exceeded = false -> attempts = 0%Z)
      /\ (can = true -> we_status exec' = we_status (c_exec T c) /\ we_status_detail exec' = we_status_detail (c_exec T c))
      /\ map es_name (we_states exec') = map es_name (we_states (c_exec T c)).
  Proof.
    intros I V1' L Hk Hp Ec name err retry exceeded can.
    pose proof (inv_threads _ _ _ _ _ I t _ V1') as TI. cbn in TI.
    assert (K : has_name (we_states (c_exec T c)) name).
    { apply TI. destruct kind; try discriminate Hk; reflexivity. }
    clear TI.
    (* error dispatch *)
    assert (S2 : exists o, STEP c t (PError T (kind, e) input) now ANothing = Some o
                  /\ o = with_ret T (stay T c (PCheckAttempts T err e retry (sc_catch cfg) input)) None).
    { eexists. split; [|reflexivity]. cbn. rewrite Hp. cbn [derive_state_config]. rewrite Ec.
      unfold retry, matching_retry, err.
      destruct kind; cbn in Hk; try discriminate Hk; inversion Hk; subst; reflexivity. }
    destruct S2 as (o2 & S2 & ->).
    destruct (go c t _ ret now ANothing _ V1' S2) as (c2 & D2 & V2 & X2 & K2). clear S2.
    set (r2 := match ret with Some x => Some x | None => Some None end).
    assert (V2' : view c2 t (PCheckAttempts T err e retry (sc_catch cfg) input) r2).
    { unfold r2. destruct ret; exact V2. }
    clear V2. cbn in X2, K2, D2.
    (* attempts *)
    assert (L2c : c_lock T c2 = None) by congruence.
    assert (K' : has_name (we_states (c_exec T c2)) name) by (rewrite X2; exact K).
    apply extract_state_has in K'. destruct K' as (s0 & E0).
    assert (RI : records_ok (we_states (c_exec T c2))) by (rewrite X2; apply (inv_records _ _ _ _ _ I)).
    assert (A0 : es_attempt s0 = 1%Z) by (eapply RI; eauto).
    assert (S3 : exists attempts, STEP c2 t (PCheckAttempts T err e retry (sc_catch cfg) input) now ANothing =
       Some (stay T c2 (PRecord T name None err (ei_msg e) true can
               (KRetryOrCatch e retry (sc_catch cfg) attempts exceeded input)))
       /\ (exceeded = false -> attempts = 0%Z)).
    { cbn [step_pc]. rewrite L2c, Hp. fold name. rewrite E0. rewrite A0.
      unfold can, exceeded, limit_zero. destruct retry as [r|]; [|eexists; split; [reflexivity|auto]].
      destruct (rt_max_attempts r) as [m|]; [|eexists; split; [reflexivity|auto]].
      cbn. destruct (m <=? 0)%Z; eexists; (split; [reflexivity|]); auto. discriminate. }
    destruct S3 as (attempts & S3 & Hatt).
    destruct (go c2 t _ r2 now ANothing _ V2' S3) as (c3 & D3 & V3 & X3 & K3). clear S3.
    assert (V3' : view c3 t (PRecord T name None err (ei_msg e) true can
               (KRetryOrCatch e retry (sc_catch cfg) attempts exceeded input)) r2).
    { cbn [stay o_ret o_pc] in V3. replace (match r2 with Some x => Some x | None => None end) with r2 in V3 by (now destruct r2).
      unfold final_pc in V3. exact V3. }
    clear V3. cbn in X3, K3, D3.
    assert (L3c : c_lock T c3 = None) by congruence.
    (* record *)
    set (det := error_detail name err (ei_msg e)).
    set (ex := if can then c_exec T c3 else fail_execution det (c_exec T c3)).
    assert (Exs : we_states ex = we_states (c_exec T c3)) by (unfold ex; now destruct can).
    destruct (update_state name None (fail_state now det) (we_states ex)) as [[sts s]|] eqn:Eu.
    2: { apply update_state_none_none in Eu. exfalso. apply Eu. rewrite Exs, X3, X2. exact K. }
    assert (S4 : STEP c3 t (PRecord T name None err (ei_msg e) true can
               (KRetryOrCatch e retry (sc_catch cfg) attempts exceeded input)) now ANothing =
       Some (with_exec T (stay T c3 (PRecordSave T (with_states ex sts) s can
               (KRetryOrCatch e retry (sc_catch cfg) attempts exceeded input))) (with_states ex sts))).
    { cbn [step_pc]. rewrite L3c. fold det. fold ex. rewrite Eu. reflexivity. }
    destruct (go c3 t _ r2 now ANothing _ V3' S4) as (c4 & D4 & V4 & X4 & K4). clear S4.
    assert (V4' : view c4 t (PRecordSave T (with_states ex sts) s can
               (KRetryOrCatch e retry (sc_catch cfg) attempts exceeded input)) r2).
    { cbn [stay with_exec o_ret o_pc] in V4. replace (match r2 with Some x => Some x | None => None end) with r2 in V4 by (now destruct r2).
      unfold final_pc in V4. exact V4. }
    clear V4. cbn in X4, K4, D4.
    destruct (go c4 t _ r2 now (ASaved saved) _ V4' eq_refl) as (c5 & D5 & V5 & X5 & K5).
    assert (V5' : view c5 t (PRecordEvent T (with_states ex sts) s can
               (KRetryOrCatch e retry (sc_catch cfg) attempts exceeded input)) r2).
    { cbn [stay with_effects o_ret o_pc] in V5. replace (match r2 with Some x => Some x | None => None end) with r2 in V5 by (now destruct r2).
      unfold final_pc in V5. exact V5. }
    clear V5. cbn in X5, K5, D5.
    pose proof (drive_app _ _ _ _ _ _ _ _ D2 (drive_app _ _ _ _ _ _ _ _ D3
                 (drive_app _ _ _ _ _ _ _ _ D4 D5))) as D. cbn [app] in D.
    apply update_state_none_some in Eu. destruct Eu as (pre & s1 & post & Es & Hn & Ests & Hs & Hni).
    exists c5; eexists; exists (with_states ex sts), s, r2, attempts. split; [exact D|]. split; [reflexivity|].
    split; [unfold r2; destruct ret; eexists; reflexivity|]. split; [exact V5'|].
    split; [congruence|]. split; [congruence|].
    split; [intros Hcan; unfold ex; rewrite Hcan; split; reflexivity|].
    split; [cbn; rewrite Ests; apply in_or_app; right; left; symmetry; exact Hs|].
    rewrite Hs. cbn [fail_state es_name es_status es_error es_completed]. repeat match goal with |- _ /\ _ => split end; auto.
    - intros Hcan. unfold ex. rewrite Hcan. cbn. split; congruence.
    - cbn. rewrite Ests. rewrite X3, X2 in Exs. rewrite <- Exs, Es. rewrite !map_app. reflexivity.
  Qed.

  (** Up to the recorded failure of a handler. *)
  Lemma fail_prefix c t st cfg input ret err msg (saved : option string) now :
    INV c -> view c t (PHandler T st cfg input None) ret -> c_lock T c = None ->
    let name := es_name st in
    let retry := matching_retry cfg (shown_error err) in
    let exceeded := match retry with Some r => limit_zero r | None => false end in
    let can := match retry with Some _ => negb exceeded | None => false end in
    let e := {| ei_state := name; ei_parent := None; ei_name := Some err; ei_msg := "Execute step failed: " ++ msg |} in
    exists c' acts exec' s ret' attempts,
      DRIVE c t acts [FSave (payload_of exec') (match saved with None => true | Some _ => false end)] c'
      /\ handler_answers acts = [inr (err, msg)]
      /\ (exists v, ret' = Some v)
      /\ view c' t (PRecordEvent T exec' s can (KRetryOrCatch e retry (sc_catch cfg) attempts exceeded input)) ret'
      /\ c_exec T c' = exec' /\ c_lock T c' = None
      /\ (can = false -> we_status exec' = Failed /\ we_status_detail exec' = detail_of name (shown_error err) msg)
      /\ In s (we_states exec') /\ es_name s = name /\ es_status s = Failed
      /\ es_error s = Some (detail_of name (shown_error err) msg) /\ es_completed s = Some now
      /\ (exceeded = false -> attempts = 0%Z)
      /\ (can = true -> we_status exec' = we_status (c_exec T c) /\ we_status_detail exec' = we_status_detail (c_exec T c))
      /\ map es_name (we_states exec') = map es_name (we_states (c_exec T c)).
  Proof.
    intros I V L name retry exceeded can e.
    pose proof (inv_threads _ _ _ _ _ I t _ V) as TI. cbn in TI. destruct TI as ((L1 & L2 & L3 & L4) & K & Ht & Hh & Hpl).
    cbn in L1. destruct (lookup (es_name st) (ws_states spec)) as [cfg'|] eqn:Ec; [|discriminate].
    inversion L1; subst cfg'. clear L1.
    destruct (go c t _ ret now (AHandler (inr (err, msg))) _ V eq_refl) as (c1 & D1 & V1 & X1 & K1).
    cbn in V1, X1, K1, D1.
    assert (exists v1, view c1 t (PError T (ExecuteStepHandlerFailed, e) input) v1) as (v1 & V1').
    { destruct ret; eexists; exact V1. }
    assert (I1 : INV c1).
    { destruct D1 as (R1 & _). cbn [sm_run] in R1. destruct (SM_STEP c _) eqn:S1; [|discriminate R1].
      inversion R1; subst. eapply inv_step; eauto. }
    destruct (fail_from_error c1 t ExecuteStepHandlerFailed "HandlerFailed" e input v1 cfg saved now I1 V1') as
      (c5 & acts & exec' & s & r2 & att & D & HA & F); [congruence|reflexivity|reflexivity|exact Ec|].
    pose proof (drive_app _ _ _ _ _ _ _ _ D1 D) as DD. cbn [app] in DD.
    exists c5. eexists. exists exec', s, r2, att. split; [exact DD|].
    split. { unfold handler_answers in *. cbn [flat_map a_answer app]. now rewrite HA. }
    rewrite <- X1. exact F.
  Qed.

  Lemma not_retried_spec cfg err : not_retried err (sc_retry cfg) ->
    match matching_retry cfg err with Some r => limit_zero r = true | None => True end.
  Proof.
    intros [N|(rs & r & E & F & L)]; unfold matching_retry.
    - destruct (sc_retry cfg) as [rs|]; [|exact Logic.I].
      destruct (List.find _ rs) as [r|] eqn:E; [|exact Logic.I]. exfalso.
      apply find_first in E. destruct E as (pre & post & -> & P & _).
      eapply N; [reflexivity| |exact P]. apply in_or_app. right. now left.
    - rewrite E. apply find_first in F. rewrite F. unfold limit_zero. unfold limit_allows in L.
      destruct (rt_max_attempts r) as [z|]; [|destruct (L Logic.I)]. apply Z.leb_le. clear - L. lia.
  Qed.

  Lemma to_catch c t exec s e retry catch att input v (now : Z) (exceeded : bool) :
    match retry with Some r => exceeded = true | None => True end ->
    view c t (PRecordEvent T exec s false (KRetryOrCatch e retry catch att exceeded input)) (Some v) ->
    exists acts c', DRIVE c t acts [FEvent (EvFailure s); FEvent (EvComplete exec)] c' /\ handler_answers acts = []
      /\ view c' t (PCatch T catch e input) (Some v) /\ c_exec T c' = c_exec T c /\ c_lock T c' = c_lock T c.
  Proof.
    intros He V1.
    destruct (go c t _ _ now ANothing _ V1 eq_refl) as (c2 & D2 & V2 & X2 & K2). cbn in V2, X2, K2, D2.
    destruct retry as [r|]; [subst exceeded|];
      (destruct (go c2 t _ _ now ANothing _ V2 eq_refl) as (c3 & D3 & V3 & X3 & K3); cbn in V3, X3, K3, D3;
       pose proof (drive_app _ _ _ _ _ _ _ _ D2 D3) as DD; eexists; exists c3; split; [exact DD|]; split; [reflexivity|];
       split; [exact V3|]; split; congruence).
  Qed.

  (** No rule applies: the failure ends the execution. *)
  Lemma handler_failure_final c t name input err msg (saved : option string) (now : Z) initial cfg :
    we_states initial = [] -> REACH initial c ->
    awaiting c t name input -> c_lock T c = None -> lookup name (ws_states spec) = Some cfg ->
    not_retried (shown_error err) (sc_retry cfg) ->
    no_match (fun r => names_error err (ct_match_errors r)) (sc_catch cfg) ->
    exists acts c' s,
      DRIVE c t acts [FSave (payload_of (c_exec T c')) (match saved with None => true | Some _ => false end);
                      FEvent (EvFailure s); FEvent (EvComplete (c_exec T c'))] c'
      /\ handler_answers acts = [inr (err, msg)]
      /\ ended_thread c' t /\ c_lock T c' = None
      /\ we_status (c_exec T c') = Failed
      /\ we_status_detail (c_exec T c') = detail_of name (shown_error err) msg
      /\ In s (we_states (c_exec T c')) /\ es_name s = name /\ es_status s = Failed
      /\ es_error s = Some (detail_of name (shown_error err) msg) /\ es_completed s = Some now.
  Proof.
    intros Hi R (st & cfg' & r & V & <-) L Hc Nr Nc.
    assert (I : INV c) by (eapply inv_reachable; eauto).
    pose proof (inv_threads _ _ _ _ _ I t _ V) as TI. cbn in TI. destruct TI as ((L1 & _) & _).
    cbn in L1. rewrite Hc in L1. inversion L1; subst cfg'. clear L1.
    destruct (fail_prefix c t st cfg input r err msg saved now I V L) as
      (c1 & acts & exec' & s & r1 & att & D & HA & (v1 & Hr1) & V1 & X1 & K1 & F1 & F2 & F3 & F4 & F5 & F6 & _ & _ & _).
    pose proof (not_retried_spec cfg _ Nr) as Er.
    set (m := matching_retry cfg (shown_error err)) in *.
    assert (Ec : match m with Some _ => negb match m with Some r => limit_zero r | None => false end | None => false end = false)
      by (destruct m; [now rewrite Er|reflexivity]).
    rewrite Ec in V1, F1.
    destruct (F1 eq_refl) as [F1a F1b]. rewrite Hr1 in V1.
    destruct (to_catch c1 t _ _ _ _ _ _ _ _ now _ (match m as x return (match x with Some r => limit_zero r = true | None => True end -> match x with Some _ => match x with Some r => limit_zero r | None => false end = true | None => True end) with Some r => fun H => H | None => fun H => H end Er) V1) as (a3 & c3 & D3 & H3 & V3 & X3 & K3).
    set (e := {| ei_state := es_name st; ei_parent := None; ei_name := Some err; ei_msg := _ |}) in *.
    assert (S4 : STEP c3 t (PCatch T (sc_catch cfg) e input) now ANothing = Some (stay T c3 (PDone T None))).
    { cbn. destruct (sc_catch cfg) as [rules|] eqn:Ecat; [|reflexivity].
      assert (List.find (fun x => error_matches err (ct_match_errors x)) rules = None) as ->; [|reflexivity].
      apply find_no_match. intros x Hx. exact (Nc rules x eq_refl Hx). }
    destruct (go c3 t _ _ now ANothing _ V3 S4) as (c4 & D4 & V4 & X4 & K4). cbn in V4, X4, K4, D4.
    pose proof (drive_app _ _ _ _ _ _ _ _ D (drive_app _ _ _ _ _ _ _ _ D3 D4)) as DD.
    cbn [app] in DD.
    assert (XE : c_exec T c4 = exec') by congruence.
    eexists; exists c4, s. rewrite XE. split; [exact DD|]. split.
    { unfold handler_answers in *. rewrite flat_map_app, HA. cbn [app]. rewrite flat_map_app, H3. reflexivity. }
    split; [eexists; eexists; exact V4|]. split; [congruence|]. auto 10.
  Qed.

  (** From the start of a state whose input can be prepared to its announcement. *)
  Lemma start_state c t name input prev r cfg i (now : Z) :
    view c t (PStart T name input prev None) r -> c_lock T c = None ->
    lookup name (ws_states spec) = Some cfg -> through extract (sc_input_path cfg) input i ->
    exists acts c' p st,
      DRIVE c t acts [FSave p true; FEvent (EvTransition prev st)] c' /\ handler_answers acts = []
      /\ view c' t (PBody T st cfg input None) r /\ c_lock T c' = None
      /\ es_name st = name /\ es_input st = i /\ (es_status st = InProgress /\ es_attempt st = match prev with Some s => if String.eqb (es_name s) name then (es_attempt s + 1)%Z else 1%Z | None => 1%Z end)
      /\ p = payload_of (c_exec T c') /\ saved_with p st.
  Proof.
    intros V L Hc Hi.
    assert (exists st, STEP c t (PStart T name input prev None) now ANothing =
       Some (stay T c (PTransition T st cfg input prev None)) /\ es_name st = name /\ es_input st = i
       /\ (es_status st = InProgress /\ es_attempt st = match prev with Some s => if String.eqb (es_name s) name then (es_attempt s + 1)%Z else 1%Z | None => 1%Z end)) as (st & S1 & N1 & N2 & N3).
    { cbn. rewrite Hc.
      assert (prepare_state_input T extract name None cfg input = inl i) as ->.
      { unfold prepare_state_input, through in *. destruct (sc_input_path cfg); rewrite Hi; reflexivity. }
      eexists. split; [reflexivity|]. cbn; auto. }
    destruct (go_none c t _ _ now ANothing _ V S1 eq_refl) as (c1 & D1 & V1 & X1 & K1). cbn in V1, X1, K1, D1.
    assert (S2 : STEP c1 t (PTransition T st cfg input prev None) now ANothing =
      Some (with_lock T (with_exec T (stay T c1 (PTransitionSave T st cfg input prev None))
                  (transition_update (c_exec T c1) (es_name st) st)) (Some t))).
    { cbn. rewrite K1, L. reflexivity. }
    destruct (go_none c1 t _ _ now ANothing _ V1 S2 eq_refl) as (c2 & D2 & V2 & X2 & K2). cbn in V2, X2, K2, D2.
    destruct (go_none c2 t _ _ now (ASaved None) _ V2 eq_refl eq_refl) as (c3 & D3 & V3 & X3 & K3). cbn in V3, X3, K3, D3.
    destruct (go_none c3 t _ _ now ANothing _ V3 eq_refl eq_refl) as (c4 & D4 & V4 & X4 & K4). cbn in V4, X4, K4, D4.
    pose proof (drive_app _ _ _ _ _ _ _ _ D1 (drive_app _ _ _ _ _ _ _ _ D2 (drive_app _ _ _ _ _ _ _ _ D3 D4))) as DD.
    cbn [app] in DD. eexists. exists c4, (payload_of (c_exec T c2)), st.
    split; [exact DD|]. split; [reflexivity|]. split; [exact V4|]. split; [exact K4|].
    split; [exact N1|]. split; [exact N2|]. split; [exact N3|]. split; [congruence|].
    rewrite X2. split; [eexists; reflexivity|]. split; reflexivity.
  Qed.

  Lemma call_state c t st cfg input r (now : Z) :
    view c t (PBody T st cfg input None) r -> sc_type cfg = ExecuteStep -> has_handler (es_name st) = true ->
    forall v, payload_is render (sc_payload_template cfg) input v ->
    exists acts c', DRIVE c t acts [FCall (es_name st) v] c' /\ handler_answers acts = []
      /\ view c' t (PHandler T st cfg input None) r /\ c_lock T c' = c_lock T c.
  Proof.
    intros V Ht Hh v Hv.
    assert (S : STEP c t (PBody T st cfg input None) now ANothing =
      Some (with_effects T (stay T c (PHandler T st cfg input None)) [FCall (es_name st) v])).
    { cbn. rewrite Ht, Hh. unfold payload_is in Hv. destruct (sc_payload_template cfg); [now rewrite Hv|now subst]. }
    destruct (go_none c t _ _ now ANothing _ V S eq_refl) as (c1 & D1 & V1 & X1 & K1). cbn in V1, X1, K1, D1.
    eexists. exists c1. split; [exact D1|]. split; [reflexivity|]. auto.
  Qed.

  Lemma reach_drive initial c t acts fs c' : REACH initial c -> DRIVE c t acts fs c' -> REACH initial c'.
  Proof.
    intros (a0 & R) (D & _). exists (a0 ++ acts)%list. apply run_app. eauto.
  Qed.

  (** A retry rule with a positive limit, or none: the handler is called again. *)
  Lemma handler_failure_retried c t name input err msg (saved : option string) (now : Z) initial cfg rs rule :
    we_states initial = [] -> REACH initial c ->
    awaiting c t name input -> c_lock T c = None -> lookup name (ws_states spec) = Some cfg ->
    sc_retry cfg = Some rs -> first_match (fun r => names_error (shown_error err) (rt_match_errors r)) rs rule ->
    limit_allows rule ->
    exists acts c' p s q prev st v,
      DRIVE c t acts [FSave p (match saved with None => true | Some _ => false end);
                      FEvent (EvFailure s); FRetryDelay name (-1); FSave q true;
                      FEvent (EvTransition prev st); FCall name v] c'
      /\ handler_answers acts = [inr (err, msg)]
      /\ awaiting c' t name input /\ c_lock T c' = None /\ REACH initial c'
      /\ sp_status p = we_status (c_exec T c)
      /\ es_name s = name /\ es_name st = name
      /\ payload_is render (sc_payload_template cfg) input v
      /\ through extract (sc_input_path cfg) input (es_input st)
      /\ es_attempt st = 2%Z.
  Proof.
    intros Hi R (st & cfg' & r & V & <-) L Hc Hrs Hm Hlim.
    assert (I : INV c) by (eapply inv_reachable; eauto).
    pose proof (inv_threads _ _ _ _ _ I t _ V) as TI. cbn in TI. destruct TI as ((L1 & L2 & _) & K & Ht & Hh & v & Hv).
    cbn in L1. rewrite Hc in L1. inversion L1; subst cfg'. clear L1.
    destruct (fail_prefix c t st cfg input r err msg saved now I V L) as
      (c1 & acts & exec' & s & r1 & att & D & HA & (v1 & Hr1) & V1 & X1 & K1 & F1 & F2 & F3 & F4 & F5 & F6 & F7 & F8 & F9).
    assert (Er : matching_retry cfg (shown_error err) = Some rule).
    { unfold matching_retry. rewrite Hrs. now apply find_first. }
    assert (Ez : limit_zero rule = false).
    { unfold limit_zero. unfold limit_allows in Hlim. destruct (rt_max_attempts rule); [|reflexivity].
      apply Z.leb_gt. lia. }
    rewrite Er in V1, F1, F7, F8. rewrite Ez in V1, F1, F7, F8. cbn [negb] in V1, F1, F8. rewrite (F7 eq_refl), Hr1 in V1.
    destruct (go c1 t _ _ now ANothing _ V1 eq_refl) as (c2 & D2 & V2 & X2 & K2). cbn in V2, X2, K2, D2.
    set (e := {| ei_state := es_name st; ei_parent := None; ei_name := Some err; ei_msg := _ |}) in *.
    assert (S3 : STEP c2 t (PRetry T e input) now ANothing =
      Some (stay T c2 (PStart T (es_name st) input (extract_state (es_name st) None (we_states (c_exec T c2))) None))).
    { cbn. rewrite K2, K1. reflexivity. }
    destruct (go c2 t _ _ now ANothing _ V2 S3) as (c3 & D3 & V3 & X3 & K3). cbn in V3, X3, K3, D3.
    destruct (start_state c3 t _ _ _ _ cfg (es_input st) now V3) as (a4 & c4 & p4 & st4 & D4 & H4 & V4 & K4 & N4 & N4' & (_ & AT) & P4 & _);
      [congruence|assumption|assumption|].
    destruct (call_state c4 t st4 cfg input _ now V4 Ht) with (v := v) as (a5 & c5 & D5 & H5 & V5 & K5); [now rewrite N4|assumption|].
    rewrite N4 in D5.
    pose proof (drive_app _ _ _ _ _ _ _ _ D (drive_app _ _ _ _ _ _ _ _ D2 (drive_app _ _ _ _ _ _ _ _ D3
      (drive_app _ _ _ _ _ _ _ _ D4 D5)))) as DD.
    cbn [app] in DD.
    eexists. exists c5. do 4 eexists. exists st4, v. split; [exact DD|].
    split. { unfold handler_answers in *. rewrite flat_map_app, HA. cbn [flat_map a_answer app]. rewrite flat_map_app, H4, H5. reflexivity. }
    split; [exists st4, cfg, (Some v1); auto|]. split; [congruence|].
    split; [eapply reach_drive; eauto|].
    split; [cbn; now apply F8|]. split; [exact F3|]. split; [exact N4|]. split; [exact Hv|]. split; [now rewrite N4'|].
    assert (I2 : INV c2) by (eapply inv_reachable; [exact Hi|]; eapply reach_drive; [exact R|]; exact (drive_app _ _ _ _ _ _ _ _ D D2)).
    pose proof (inv_records _ _ _ _ _ I2) as [_ RA]. rewrite AT.
    destruct (extract_state (es_name st) None (we_states (c_exec T c2))) as [s2|] eqn:E2.
    - pose proof (RA _ _ E2) as A2. apply extract_state_none in E2. destruct E2 as (pre & post & _ & Hn & _). rewrite Hn, String.eqb_refl, A2. reflexivity.
    - exfalso. assert (Hk : has_name (we_states (c_exec T c2)) (es_name st)); [|apply extract_state_has in Hk; destruct Hk as (s2 & Hk); congruence].
      rewrite X2, X1. unfold has_name. rewrite <- F3. now apply in_map.
  Qed.

  (** A catch rule: the execution goes on with the rule's state. *)
  Lemma handler_failure_caught c t name input err msg (saved : option string) (now : Z) initial cfg rules rule cfg' input' i' :
    we_states initial = [] -> REACH initial c ->
    awaiting c t name input -> c_lock T c = None -> lookup name (ws_states spec) = Some cfg ->
    not_retried (shown_error err) (sc_retry cfg) ->
    sc_catch cfg = Some rules -> first_match (fun r => names_error err (ct_match_errors r)) rules rule ->
    lookup (ct_next rule) (ws_states spec) = Some cfg' ->
    caught_input inject rule err ("Execute step failed: " ++ msg) input input' ->
    through extract (sc_input_path cfg') input' i' ->
    exists acts c' e s q prev st,
      DRIVE c t acts [FSave (payload_of e) (match saved with None => true | Some _ => false end);
                      FEvent (EvFailure s); FEvent (EvComplete e); FSave q true;
                      FEvent (EvTransition prev st)] c'
      /\ handler_answers acts = [inr (err, msg)] /\ c_lock T c' = None /\ REACH initial c'
      /\ we_status e = Failed /\ es_name s = name /\ es_status s = Failed
      /\ es_name st = ct_next rule /\ es_input st = i'
      /\ sp_status q = InProgress /\ q = payload_of (c_exec T c').
  Proof.
    intros Hi R (st & cfg0 & r & V & <-) L Hc Nr Hcat Hm Hc' Hin Hth.
    assert (I : INV c) by (eapply inv_reachable; eauto).
    pose proof (inv_threads _ _ _ _ _ I t _ V) as TI. cbn in TI. destruct TI as ((L1 & _) & _).
    cbn in L1. rewrite Hc in L1. inversion L1; subst cfg0. clear L1.
    destruct (fail_prefix c t st cfg input r err msg saved now I V L) as
      (c1 & acts & exec' & s & r1 & att & D & HA & (v1 & Hr1) & V1 & X1 & K1 & F1 & F2 & F3 & F4 & F5 & F6 & F7 & F8 & F9).
    pose proof (not_retried_spec cfg _ Nr) as Er.
    set (m := matching_retry cfg (shown_error err)) in *.
    assert (Ec : match m with Some _ => negb match m with Some r => limit_zero r | None => false end | None => false end = false)
      by (destruct m; [now rewrite Er|reflexivity]).
    rewrite Ec in V1, F1.
    destruct (F1 eq_refl) as [F1a F1b]. rewrite Hr1 in V1.
    destruct (to_catch c1 t _ _ _ _ _ _ _ _ now _ (match m as x return (match x with Some r => limit_zero r = true | None => True end -> match x with Some _ => match x with Some r => limit_zero r | None => false end = true | None => True end) with Some r => fun H => H | None => fun H => H end Er) V1) as (a3 & c3 & D3 & H3 & V3 & X3 & K3).
    set (e := {| ei_state := es_name st; ei_parent := None; ei_name := Some err; ei_msg := _ |}) in *.
    assert (S4 : STEP c3 t (PCatch T (sc_catch cfg) e input) now ANothing =
      Some (stay T c3 (PStart T (ct_next rule) input' (extract_state (ct_next rule) None (we_states (c_exec T c3))) None))).
    { cbn. rewrite Hcat. apply find_first in Hm. rewrite Hm. rewrite K3, K1.
      assert (prepare_input_from_catch inject rule e input = inl input') as ->; [|reflexivity].
      unfold prepare_input_from_catch, caught_input in *. destruct (ct_result_path rule); [|now rewrite Hin].
      cbn. cbn in Hin. rewrite Hin. reflexivity. }
    destruct (go c3 t _ _ now ANothing _ V3 S4) as (c4 & D4 & V4 & X4 & K4). cbn in V4, X4, K4, D4.
    destruct (start_state c4 t _ _ _ _ cfg' i' now V4) as (a5 & c5 & p5 & st5 & D5 & H5 & V5 & K5 & N5 & N5' & _ & P5 & SW);
      [congruence|assumption|assumption|].
    pose proof (drive_app _ _ _ _ _ _ _ _ D (drive_app _ _ _ _ _ _ _ _ D3
      (drive_app _ _ _ _ _ _ _ _ D4 D5))) as DD.
    cbn [app] in DD. eexists. exists c5, exec', s. do 2 eexists. exists st5. split; [exact DD|].
    split. { unfold handler_answers in *. rewrite flat_map_app, HA. cbn [app]. rewrite flat_map_app, H3. cbn [flat_map a_answer app]. rewrite H5. reflexivity. }
    split; [congruence|]. split; [eapply reach_drive; eauto|]. repeat split; auto. apply SW.
  Qed.

  (** Unbounded retries. *)
  Lemma retries_unbounded initial cfg rs rule err msg n : forall c t name input,
    we_states initial = [] -> REACH initial c ->
    awaiting c t name input -> c_lock T c = None -> lookup name (ws_states spec) = Some cfg ->
    sc_retry cfg = Some rs -> first_match (fun r => names_error (shown_error err) (rt_match_errors r)) rs rule ->
    limit_allows rule ->
    exists acts c', RUN c acts = Some c' /\ only t acts /\ Forall (fun x => x = inr (err, msg)) (handler_answers acts)
      /\ length (calls (effects (c_log T c'))) = n + length (calls (effects (c_log T c)))
      /\ awaiting c' t name input.
  Proof.
    induction n as [|n IH]; intros c t name input Hi R A L Hc Hrs Hm Hl.
    - exists [], c. repeat split; auto. constructor. constructor.
    - destruct (handler_failure_retried c t name input err msg None 0%Z initial cfg rs rule) as
        (acts & c1 & p & s & q & prev & st & v & D & HA & A1 & L1 & R1 & _); auto.
      destruct (IH c1 t name input) as (acts2 & c2 & R2 & O2 & F2 & N2 & A2); auto.
      destruct D as (D1 & D2 & D3).
      exists (acts ++ acts2)%list, c2. split; [apply run_app; eauto|]. split; [apply Forall_app; auto|].
      split. { unfold handler_answers in *. rewrite flat_map_app, HA. constructor; auto. }
      split; [|exact A2]. rewrite N2, D3. unfold effects. rewrite map_app, map_map. cbn [snd]. rewrite map_id.
      unfold calls. rewrite flat_map_app, app_length. cbn. lia.
  Qed.
End Err.
