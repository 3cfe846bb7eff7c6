(** States that cannot be executed, progress that cannot be saved (C134) *)
From Verif Require Import Base Json WfTypes StateMachineModel StateMachineSpec StateMachineProofs StateMachineSeq StateMachineErr StateMachineMore StateMachineCases StateMachineFailSpec.
Open Scope string_scope.

Section Fail.
  Context {T : Type}.
  Variable render : T -> json -> json + render_error.
  Variable extract : json -> string -> json + string.
  Variable inject : json -> string -> json -> json + string.
  Variable has_handler : string -> bool.
  Variable wait_time : wait_config -> json -> Z -> N + (bool * option string * string).
  Variable spec : workflow_spec T.
  Notation STEP := (step_pc T render extract inject has_handler wait_time spec).
  Notation SM_STEP := (sm_step T render extract inject has_handler wait_time spec).
  Notation RUN := (sm_run T render extract inject has_handler wait_time spec).
  Notation INV := (inv render extract has_handler spec).
  Notation REACH := (reachable render extract inject has_handler wait_time spec).
  Notation DRIVE := (drive render extract inject has_handler wait_time spec).
  Notation GO := (go render extract inject has_handler wait_time spec).
  Notation GO_NONE := (go_none render extract inject has_handler wait_time spec).
  Notation APP := (drive_app render extract inject has_handler wait_time spec).
  Local Arguments error_detail : simpl never.

  Definition stops (k : err_kind) : option (string * bool) :=
    match k with
    | PersistFailed => Some ("PersistFailed", false)
    | StateNotFound => Some ("StateNotFound", true)
    | InvalidState => Some ("InvalidState", true)
    | _ => None
    end.
  Definition okb (saved : option string) : bool := match saved with None => true | Some _ => false end.

  (** The record of a final error. *)
  Lemma record_stop c t name ename msg (persist : bool) v (saved : option string) (now : Z) :
    view c t (PRecord T name None ename msg persist false KStop) (Some v) -> c_lock T c = None ->
    has_name (we_states (c_exec T c)) name ->
    exists acts c' s,
      DRIVE c t acts ((if persist then [FSave (payload_of (c_exec T c')) (okb saved)] else []) ++
                      [FEvent (EvFailure s); FEvent (EvComplete (c_exec T c'))])%list c'
      /\ handler_answers acts = [] /\ failed_at c' t now name (failure_text name ename msg) s.
  Proof.
    intros V1' L K.
    set (det := error_detail name ename msg).
    set (ex := fail_execution det (c_exec T c)).
    destruct (update_state name None (fail_state now det) (we_states ex)) as [[sts s]|] eqn:Eu.
    2: { apply update_state_none_none in Eu. exfalso. apply Eu. exact K. }
    assert (S2 : STEP c t (PRecord T name None ename msg persist false KStop) now ANothing =
      Some (with_exec T (stay T c (if persist then PRecordSave T (with_states ex sts) s false KStop
                                    else PRecordEvent T (with_states ex sts) s false KStop)) (with_states ex sts))).
    { cbn [step_pc]. rewrite L. fold det. fold ex. rewrite Eu. reflexivity. }
    destruct (GO c t _ _ now ANothing _ V1' S2) as (c2 & D2 & V2 & X2 & K2). clear S2. cbn in X2, K2, D2.
    assert (exists a3 c3, DRIVE c2 t a3 (if persist then [FSave (payload_of (with_states ex sts)) (okb saved)] else []) c3 /\ handler_answers a3 = []
              /\ view c3 t (PRecordEvent T (with_states ex sts) s false KStop) (Some v) /\ c_exec T c3 = with_states ex sts /\ c_lock T c3 = None) as (a3 & c3 & D3 & H3 & V3 & X3 & K3).
    { destruct persist; cbn in V2.
      - destruct (GO c2 t _ _ now (ASaved saved) _ V2 eq_refl) as (c3 & D3 & V3 & X3 & K3). cbn in V3, X3, K3, D3.
        eexists. exists c3. split; [exact D3|]. split; [reflexivity|]. split; [exact V3|]. split; congruence.
      - exists [], c2. split; [apply drive_nil|]. split; [reflexivity|]. split; [exact V2|]. split; congruence. }
    destruct (GO c3 t _ _ now ANothing _ V3 eq_refl) as (c4 & D4 & V4 & X4 & K4). cbn in V4, X4, K4, D4.
    destruct (GO c4 t _ _ now ANothing _ V4 eq_refl) as (c5 & D5 & V5 & X5 & K5). cbn in V5, X5, K5, D5.
    pose proof (APP _ _ _ _ _ _ _ _ D2 (APP _ _ _ _ _ _ _ _ D3 (APP _ _ _ _ _ _ _ _ D4 D5))) as DD.
    cbn [app] in DD. assert (XE : c_exec T c5 = with_states ex sts) by congruence.
    apply update_state_none_some in Eu. destruct Eu as (pre & s1 & post & Es & Hn & Ests & Hs & Hni).
    eexists; exists c5, s. rewrite XE. split; [exact DD|].
    split. { unfold handler_answers in *. cbn [flat_map a_answer app]. rewrite flat_map_app, H3. reflexivity. }
    unfold failed_at. rewrite XE. split; [eexists; eexists; exact V5|]. split; [congruence|].
    split; [reflexivity|]. split; [reflexivity|].
    split; [cbn; rewrite Ests; apply in_or_app; right; left; symmetry; exact Hs|].
    rewrite Hs. cbn [fail_state es_name es_status es_error es_completed]. auto.
  Qed.

  (** An error of a kind that is never retried or caught. *)
  Lemma stop_error c t kind ename (persist : bool) e input ret (saved : option string) (now : Z) :
    view c t (PError T (kind, e) input) ret -> c_lock T c = None ->
    stops kind = Some (ename, persist) -> ei_parent e = None -> has_name (we_states (c_exec T c)) (ei_state e) ->
    exists acts c' s,
      DRIVE c t acts ((if persist then [FSave (payload_of (c_exec T c')) (okb saved)] else []) ++
                      [FEvent (EvFailure s); FEvent (EvComplete (c_exec T c'))])%list c'
      /\ handler_answers acts = [] /\ failed_at c' t now (ei_state e) (failure_text (ei_state e) ename (ei_msg e)) s.
  Proof.
    intros V L Hk Hp K.
    assert (S1 : STEP c t (PError T (kind, e) input) now ANothing =
      Some (with_ret T (stay T c (PRecord T (ei_state e) None ename (ei_msg e) persist false KStop)) None)).
    { cbn. rewrite Hp. destruct kind; cbn in Hk; try discriminate Hk; inversion Hk; subst; reflexivity. }
    destruct (GO c t _ ret now ANothing _ V S1) as (c1 & D1 & V1 & X1 & K1). clear S1. cbn in X1, K1, D1.
    assert (exists v, view c1 t (PRecord T (ei_state e) None ename (ei_msg e) persist false KStop) (Some v)) as [v V1'] by (destruct ret; eexists; exact V1).
    destruct (record_stop c1 t _ _ _ persist v saved now V1') as (a2 & c2 & s & D2 & H2 & F2); [congruence|rewrite X1; exact K|].
    pose proof (APP _ _ _ _ _ _ _ _ D1 D2) as DD. cbn [app] in DD.
    eexists; exists c2, s. split; [exact DD|]. split; [exact H2|exact F2].
  Qed.

  Lemma unusable_final c t name cfg input initial msg (saved : option string) (now : Z) :
    we_states initial = [] -> REACH initial c -> running c t name cfg input -> c_lock T c = None ->
    unusable has_handler wait_time name cfg input now msg ->
    exists acts c' s,
      DRIVE c t acts [FSave (payload_of (c_exec T c')) (okb saved); FEvent (EvFailure s); FEvent (EvComplete (c_exec T c'))] c'
      /\ handler_answers acts = [] /\ failed_at c' t now name (failure_text name "InvalidState" msg) s.
  Proof.
    intros Hi R (st & r & V & <-) L U. assert (I : INV c) by (eapply inv_reachable; eauto).
    pose proof (inv_threads _ _ _ _ _ I t _ V) as TI. cbn in TI. destruct TI as (_ & K & _).
    assert (S1 : STEP c t (PBody T st cfg input None) now ANothing = Some (stay T c (PError T (mk_err InvalidState (es_name st) None None msg) input))).
    { cbn. destruct U as [E1 E2|E1 E2|E1 E2|E1 E2|w m E1 E2 E3|E1]; rewrite E1, ?E2, ?E3; reflexivity. }
    destruct (GO_NONE _ _ _ _ _ _ _ V S1 eq_refl) as (c1 & D1 & V1 & X1 & K1). cbn in X1, K1, D1.
    assert (V1' : view c1 t (PError T (mk_err InvalidState (es_name st) None None msg) input) r) by (destruct r; exact V1).
    unfold mk_err in V1'.
    destruct (stop_error c1 t InvalidState "InvalidState" true _ input r saved now V1') as (acts & c2 & s & D2 & H2 & F2);
      [congruence|reflexivity|reflexivity|rewrite X1; exact K|].
    pose proof (APP _ _ _ _ _ _ _ _ D1 D2) as DD. cbn [app] in DD.
    eexists. exists c2, s. split; [exact DD|]. split; [exact H2|]. exact F2.
  Qed.

  (** From a handler's answer to the save of its result. *)
  Lemma answered_state c t name input o v initial cfg (now : Z) :
    we_states initial = [] -> REACH initial c -> awaiting c t name input -> c_lock T c = None ->
    lookup name (ws_states spec) = Some cfg -> passes_on extract inject cfg input o v ->
    exists acts c' st r, DRIVE c t acts [] c' /\ handler_answers acts = [inl o]
      /\ view c' t (PCompletedSave T v st cfg input None) r /\ es_name st = name
      /\ c_lock T c' = Some t /\ has_name (we_states (c_exec T c')) name
      /\ exists s, In s (we_states (c_exec T c')) /\ es_name s = name /\ es_status s = Succeeded /\ es_output s = Some v
      /\ map es_name (we_states (c_exec T c')) = map es_name (we_states (c_exec T c))
      /\ we_status (c_exec T c') = we_status (c_exec T c).
  Proof.
    intros Hi R (st & cfg0 & r & V & Hn) L Hc Hp.
    assert (I : INV c) by (eapply inv_reachable; eauto).
    pose proof (inv_threads _ _ _ _ _ I t _ V) as K. cbn in K.
    assert (cfg0 = cfg).
    { destruct K as ((K1 & _) & _). unfold derive_state_config in K1. rewrite Hn, Hc in K1. now inversion K1. }
    subst cfg0. destruct K as (_ & K & _).
    assert (S1 : STEP c t (PHandler T st cfg input None) now (AHandler (inl o)) =
      Some (stay T c (PSuccess T o st cfg input None))) by reflexivity.
    destruct (GO_NONE _ _ _ _ _ _ _ V S1 eq_refl) as (c1 & D1 & V1 & X1 & K1). cbn in X1, K1, D1.
    assert (V1' : view c1 t (PSuccess T o st cfg input None) r) by (destruct r; exact V1). clear V1 S1.
    assert (S2 : STEP c1 t (PSuccess T o st cfg input None) now ANothing = Some (stay T c1 (PCompleted T o v st cfg input None))).
    { cbn. unfold prepare_state_output. unfold passes_on, through in Hp. destruct (sc_result_path cfg); [now rewrite Hp|].
      destruct (sc_output_path cfg); [now rewrite Hp|now subst]. }
    destruct (GO_NONE _ _ _ _ _ _ _ V1' S2 eq_refl) as (c2 & D2 & V2 & X2 & K2). cbn in X2, K2, D2.
    assert (V2' : view c2 t (PCompleted T o v st cfg input None) r) by (destruct r; exact V2). clear V2 S2.
    destruct (update_state (es_name st) None (complete_state now o v) (we_states (c_exec T c2))) as [[sts s]|] eqn:Eu.
    2: { apply update_state_none_none in Eu. exfalso. apply Eu. rewrite X2, X1. exact K. }
    assert (S3 : STEP c2 t (PCompleted T o v st cfg input None) now ANothing =
      Some (with_lock T (with_exec T (stay T c2 (PCompletedSave T v st cfg input None)) (with_states (c_exec T c2) sts)) (Some t))).
    { cbn [step_pc]. rewrite K2, K1, L, Eu. reflexivity. }
    destruct (GO_NONE _ _ _ _ _ _ _ V2' S3 eq_refl) as (c3 & D3 & V3 & X3 & K3). cbn in X3, K3, D3.
    assert (V3' : view c3 t (PCompletedSave T v st cfg input None) r) by (destruct r; exact V3). clear V3 S3.
    apply update_state_none_some in Eu. destruct Eu as (pre & s1 & post & Es & Hn1 & Ests & Hs & Hni).
    assert (N : map es_name (we_states (c_exec T c3)) = map es_name (we_states (c_exec T c))).
    { rewrite X3. cbn. rewrite Ests. rewrite <- X1, <- X2, Es, !map_app. reflexivity. }
    pose proof (APP _ _ _ _ _ _ _ _ D1 (APP _ _ _ _ _ _ _ _ D2 D3)) as DD. cbn [app] in DD.
    eexists. exists c3, st, r. split; [exact DD|]. split; [reflexivity|]. split; [exact V3'|]. split; [exact Hn|].
    split; [exact K3|]. split; [unfold has_name; rewrite N, <- Hn; exact K|].
    exists s. split; [rewrite X3; cbn; rewrite Ests; apply in_or_app; right; left; now rewrite Hs|]. rewrite Hs. cbn. rewrite Hn1. repeat split; auto. rewrite X3. cbn. congruence.
  Qed.

  (** A state that neither ends the execution nor has a successor. *)
  Lemma no_successor_final c t name input o v initial cfg (saved : option string) (now : Z) :
    we_states initial = [] -> REACH initial c -> awaiting c t name input -> c_lock T c = None ->
    lookup name (ws_states spec) = Some cfg -> passes_on extract inject cfg input o v ->
    sc_next cfg = None -> sc_end cfg <> Some true ->
    exists acts c' p s,
      DRIVE c t acts [FSave p true; FSave (payload_of (c_exec T c')) (okb saved); FEvent (EvFailure s); FEvent (EvComplete (c_exec T c'))] c'
      /\ handler_answers acts = [inl o] /\ failed_at c' t now name (failure_text name "InvalidState" "State is missing next or end field") s
      /\ exists s0, In s0 (sp_states p) /\ es_name s0 = name /\ es_status s0 = Succeeded /\ es_output s0 = Some v.
  Proof.
    intros Hi R A L Hc Hp Nx En.
    destruct (answered_state c t name input o v initial cfg now Hi R A L Hc Hp) as (a1 & c1 & st & r & D1 & H1 & V1 & <- & K1 & N1 & s0 & Q1 & Q2 & Q3 & Q4 & _).
    assert (S2 : STEP c1 t (PCompletedSave T v st cfg input None) now (ASaved None) =
      Some (with_effects T (with_lock T (stay T c1 (PError T (mk_err InvalidState (es_name st) None None "State is missing next or end field") input)) None) [FSave (payload_of (c_exec T c1)) true])).
    { cbn. rewrite Nx. destruct (sc_end cfg) as [[|]|]; [now elim En|reflexivity|reflexivity]. }
    destruct (GO_NONE _ _ _ _ _ _ _ V1 S2 eq_refl) as (c2 & D2 & V2 & X2 & K2). cbn in X2, K2, D2.
    assert (V2' : view c2 t (PError T (mk_err InvalidState (es_name st) None None "State is missing next or end field") input) r) by (destruct r; exact V2).
    unfold mk_err in V2'.
    destruct (stop_error c2 t InvalidState "InvalidState" true _ input r saved now V2') as (a3 & c3 & s & D3 & H3 & F3);
      [congruence|reflexivity|reflexivity|rewrite X2; exact N1|].
    pose proof (APP _ _ _ _ _ _ _ _ D1 (APP _ _ _ _ _ _ _ _ D2 D3)) as DD. cbn [app] in DD.
    eexists. exists c3, (payload_of (c_exec T c1)), s. split; [exact DD|].
    split. { unfold handler_answers in *. rewrite flat_map_app, H1. cbn. now rewrite H3. }
    split; [exact F3|]. exists s0. auto.
  Qed.

  (** A result that cannot be saved. *)
  Lemma unsaved_result_final c t name input o v initial cfg m (now : Z) :
    we_states initial = [] -> REACH initial c -> awaiting c t name input -> c_lock T c = None ->
    lookup name (ws_states spec) = Some cfg -> passes_on extract inject cfg input o v ->
    exists acts c' p s,
      DRIVE c t acts [FSave p false; FEvent (EvFailure s); FEvent (EvComplete (c_exec T c'))] c'
      /\ handler_answers acts = [inl o]
      /\ failed_at c' t now name (failure_text name "PersistFailed" ("Failed to persist state transition: " ++ m)) s.
  Proof.
    intros Hi R A L Hc Hp.
    destruct (answered_state c t name input o v initial cfg now Hi R A L Hc Hp) as (a1 & c1 & st & r & D1 & H1 & V1 & <- & K1 & N1 & _).
    assert (S2 : STEP c1 t (PCompletedSave T v st cfg input None) now (ASaved (Some m)) =
      Some (with_effects T (with_lock T (stay T c1 (PError T (mk_err PersistFailed (es_name st) None None ("Failed to persist state transition: " ++ m)) input)) None) [FSave (payload_of (c_exec T c1)) false])).
    { reflexivity. }
    destruct (GO_NONE _ _ _ _ _ _ _ V1 S2 eq_refl) as (c2 & D2 & V2 & X2 & K2). cbn in X2, K2, D2.
    assert (V2' : view c2 t (PError T (mk_err PersistFailed (es_name st) None None ("Failed to persist state transition: " ++ m)) input) r) by (destruct r; exact V2).
    unfold mk_err in V2'.
    destruct (stop_error c2 t PersistFailed "PersistFailed" false _ input r None now V2') as (a3 & c3 & s & D3 & H3 & F3);
      [congruence|reflexivity|reflexivity|rewrite X2; exact N1|].
    pose proof (APP _ _ _ _ _ _ _ _ D1 (APP _ _ _ _ _ _ _ _ D2 D3)) as DD. cbn [app] in DD.
    eexists. exists c3, (payload_of (c_exec T c1)), s. split; [exact DD|].
    split. { unfold handler_answers in *. rewrite flat_map_app, H1. cbn. now rewrite H3. } exact F3.
  Qed.

  (** A start that cannot be saved. *)
  Lemma unsaved_start_final c t name input i cfg m (now : Z) :
    about c t name input -> c_lock T c = None ->
    lookup name (ws_states spec) = Some cfg -> through extract (sc_input_path cfg) input i ->
    exists acts c' p s,
      DRIVE c t acts [FSave p false; FEvent (EvFailure s); FEvent (EvComplete (c_exec T c'))] c'
      /\ handler_answers acts = []
      /\ failed_at c' t now name (failure_text name "PersistFailed" ("Failed to persist state transition: " ++ m)) s.
  Proof.
    intros (prev & r & V) L Hc Hi.
    assert (exists st, STEP c t (PStart T name input prev None) now ANothing =
       Some (stay T c (PTransition T st cfg input prev None)) /\ es_name st = name) as (st & S1 & N1).
    { cbn. rewrite Hc.
      assert (prepare_state_input T extract name None cfg input = inl i) as ->.
      { unfold prepare_state_input, through in *. destruct (sc_input_path cfg); rewrite Hi; reflexivity. }
      eexists. split; reflexivity. }
    destruct (GO_NONE c t _ _ now ANothing _ V S1 eq_refl) as (c1 & D1 & V1 & X1 & K1). cbn in V1, X1, K1, D1.
    assert (S2 : STEP c1 t (PTransition T st cfg input prev None) now ANothing =
      Some (with_lock T (with_exec T (stay T c1 (PTransitionSave T st cfg input prev None))
                  (transition_update (c_exec T c1) (es_name st) st)) (Some t))).
    { cbn. rewrite K1, L. reflexivity. }
    destruct (GO_NONE c1 t _ _ now ANothing _ V1 S2 eq_refl) as (c2 & D2 & V2 & X2 & K2). cbn in V2, X2, K2, D2.
    destruct (GO_NONE c2 t _ _ now (ASaved (Some m)) _ V2 eq_refl eq_refl) as (c3 & D3 & V3 & X3 & K3). cbn in X3, K3, D3.
    assert (V3' : view c3 t (PError T (mk_err PersistFailed (es_name st) None None ("Failed to persist state transition: " ++ m)) input) r) by (destruct r; exact V3).
    unfold mk_err in V3'.
    destruct (stop_error c3 t PersistFailed "PersistFailed" false _ input r None now V3') as (a4 & c4 & s & D4 & H4 & F4);
      [congruence|reflexivity|reflexivity| |].
    { rewrite X3, X2. unfold has_name, transition_update. cbn. rewrite map_app. apply in_or_app. right. now left. }
    pose proof (APP _ _ _ _ _ _ _ _ D1 (APP _ _ _ _ _ _ _ _ D2 (APP _ _ _ _ _ _ _ _ D3 D4))) as DD. cbn [app] in DD.
    rewrite <- N1. eexists. exists c4, (payload_of (c_exec T c2)), s. split; [exact DD|]. split; [exact H4|]. exact F4.
  Qed.

  (** An input path that selects nothing, caught. *)
  Lemma input_path_caught c t name input cfg p m rules rule cfg' input' i' (now : Z) :
    about c t name input -> c_lock T c = None -> lookup name (ws_states spec) = Some cfg ->
    sc_input_path cfg = Some p -> extract input p = inr m ->
    sc_catch cfg = Some rules -> first_match (fun r => names_error "InvalidInputPath" (ct_match_errors r)) rules rule ->
    lookup (ct_next rule) (ws_states spec) = Some cfg' ->
    caught_input inject rule "InvalidInputPath" ("Failed to extract value from input JSON path: " ++ m) input input' ->
    through extract (sc_input_path cfg') input' i' ->
    exists acts c' q prev st,
      DRIVE c t acts [FSave q true; FEvent (EvTransition prev st)] c' /\ handler_answers acts = []
      /\ running c' t (ct_next rule) cfg' input' /\ c_lock T c' = None
      /\ es_name st = ct_next rule /\ es_input st = i' /\ saved_with q st.
  Proof.
    intros (prev & r & V) L Hc Hp He Hr Hm Hc' Hi Ht.
    set (e := {| ei_state := name; ei_parent := None; ei_name := Some "InvalidInputPath"; ei_msg := ("Failed to extract value from input JSON path: " ++ m)%string |}).
    assert (S1 : STEP c t (PStart T name input prev None) now ANothing = Some (stay T c (PError T (InvalidInputPath, e) input))).
    { cbn. rewrite Hc. unfold prepare_state_input. rewrite Hp, He. reflexivity. }
    destruct (GO_NONE c t _ _ now ANothing _ V S1 eq_refl) as (c1 & D1 & V1 & X1 & K1). cbn in X1, K1, D1.
    assert (V1' : view c1 t (PError T (InvalidInputPath, e) input) r) by (destruct r; exact V1). clear V1.
    assert (S2 : STEP c1 t (PError T (InvalidInputPath, e) input) now ANothing = Some (with_ret T (stay T c1 (PCatch T (sc_catch cfg) e input)) None)).
    { cbn. rewrite Hc. reflexivity. }
    destruct (GO c1 t _ _ now ANothing _ V1' S2) as (c2 & D2 & V2 & X2 & K2). cbn in X2, K2, D2.
    assert (exists r2, view c2 t (PCatch T (sc_catch cfg) e input) r2) as [r2 V2'] by (destruct r; eexists; exact V2).
    assert (S3 : STEP c2 t (PCatch T (sc_catch cfg) e input) now ANothing =
      Some (stay T c2 (PStart T (ct_next rule) input' (extract_state (ct_next rule) None (we_states (c_exec T c2))) None))).
    { cbn. rewrite Hr. apply find_first in Hm. rewrite Hm, K2, K1, L.
      unfold prepare_input_from_catch. unfold caught_input in Hi. destruct (ct_result_path rule); [cbn in Hi |- *; rewrite Hi; reflexivity|now subst]. }
    destruct (GO_NONE c2 t _ _ now ANothing _ V2' S3 eq_refl) as (c3 & D3 & V3 & X3 & K3). cbn in X3, K3, D3.
    assert (V3' : exists r3, view c3 t (PStart T (ct_next rule) input' (extract_state (ct_next rule) None (we_states (c_exec T c2))) None) r3) by (destruct r2; eexists; exact V3).
    destruct V3' as [r3 V3'].
    destruct (start_state render extract inject has_handler wait_time spec c3 t _ _ _ _ cfg' i' now V3') as (a4 & c4 & q & st & D4 & H4 & V4 & K4 & N4 & N5 & _ & _ & N6);
      [congruence|assumption|assumption|].
    pose proof (APP _ _ _ _ _ _ _ _ D1 (APP _ _ _ _ _ _ _ _ D2 (APP _ _ _ _ _ _ _ _ D3 D4))) as DD. cbn [app] in DD.
    eexists. exists c4, q. do 2 eexists. split; [exact DD|]. split; [exact H4|].
    split; [exists st; eexists; split; [exact V4|exact N4]|]. auto.
  Qed.

  (** A successor that does not exist. *)
  Lemma missing_next c t name input o v initial cfg next (now : Z) :
    we_states initial = [] -> REACH initial c -> awaiting c t name input -> c_lock T c = None ->
    lookup name (ws_states spec) = Some cfg -> passes_on extract inject cfg input o v ->
    sc_next cfg = Some next -> lookup next (ws_states spec) = None -> ~ In next (map es_name (we_states (c_exec T c))) ->
    exists acts c' p, DRIVE c t acts [FSave p true] c' /\ handler_answers acts = [inl o] /\ crashed_thread c' t
      /\ sp_status p = we_status (c_exec T c).
  Proof.
    intros Hi R A L Hc Hp Nx Nl Nn.
    destruct (answered_state c t name input o v initial cfg now Hi R A L Hc Hp) as (a1 & c1 & st & r & D1 & H1 & V1 & N1 & K1 & _ & s0 & _ & _ & _ & _ & Nm & Ns).
    assert (S2 : STEP c1 t (PCompletedSave T v st cfg input None) now (ASaved None) =
      Some (with_effects T (with_lock T (with_ret T (stay T c1 (PStart T next v (Some st) None)) (Some v)) None) [FSave (payload_of (c_exec T c1)) true])).
    { cbn. rewrite Nx. reflexivity. }
    destruct (GO c1 t _ _ now (ASaved None) _ V1 S2) as (c2 & D2 & V2 & X2 & K2). cbn in X2, K2, D2.
    assert (exists r2, view c2 t (PStart T next v (Some st) None) r2) as [r2 V2'] by (destruct r; eexists; exact V2).
    set (e := {| ei_state := next; ei_parent := None; ei_name := None; ei_msg := "State not found in workflow spec" |}).
    assert (S3 : STEP c2 t (PStart T next v (Some st) None) now ANothing = Some (stay T c2 (PError T (StateNotFound, e) v))).
    { cbn. rewrite Nl. reflexivity. }
    destruct (GO_NONE _ _ _ _ _ _ _ V2' S3 eq_refl) as (c3 & D3 & V3 & X3 & K3). cbn in X3, K3, D3.
    assert (V3' : view c3 t (PError T (StateNotFound, e) v) r2) by (destruct r2; exact V3).
    destruct (GO c3 t _ _ now ANothing _ V3' eq_refl) as (c4 & D4 & V4 & X4 & K4). cbn in X4, K4, D4.
    assert (exists r4, view c4 t (PRecord T next None "StateNotFound" "State not found in workflow spec" true false KStop) r4) as [r4 V4'] by (destruct r2; eexists; exact V4).
    assert (S5 : exists ex, STEP c4 t (PRecord T next None "StateNotFound" "State not found in workflow spec" true false KStop) now ANothing = Some (with_exec T (stay T c4 (PPanicked T)) ex)).
    { cbn [step_pc]. rewrite K4, K3, K2. eexists.
      destruct (update_state next None _ _) as [[sts s]|] eqn:Eu; [|reflexivity]. exfalso.
      apply update_state_none_some in Eu. destruct Eu as (pre & s1 & post & Es & Hn1 & _). apply Nn. rewrite <- Nm, <- X2, <- X3, <- X4.
      cbn in Es. rewrite Es, map_app. apply in_or_app. right. left. exact Hn1. }
    destruct S5 as [ex S5]. destruct (GO _ _ _ _ _ _ _ V4' S5) as (c5 & D5 & V5 & X5 & K5). cbn in D5.
    pose proof (APP _ _ _ _ _ _ _ _ D1 (APP _ _ _ _ _ _ _ _ D2 (APP _ _ _ _ _ _ _ _ D3 (APP _ _ _ _ _ _ _ _ D4 D5)))) as DD. cbn [app] in DD.
    eexists. exists c5, (payload_of (c_exec T c1)). split; [exact DD|].
    split. { unfold handler_answers in *. rewrite flat_map_app, H1. reflexivity. }
    split; [destruct r4; eexists; exact V5|]. exact Ns.
  Qed.

  (** A rule that catches an error but whose result path cannot be applied. *)
  Lemma caught_in_vain c t name input err msg (saved saved' : option string) (now : Z) initial cfg rules rule p m :
    we_states initial = [] -> REACH initial c ->
    awaiting c t name input -> c_lock T c = None -> lookup name (ws_states spec) = Some cfg ->
    not_retried (shown_error err) (sc_retry cfg) ->
    sc_catch cfg = Some rules -> first_match (fun r => names_error err (ct_match_errors r)) rules rule ->
    ct_result_path rule = Some p ->
    inject input p (JObj [("cause", JStr ("Execute step failed: " ++ msg)); ("error", JStr err)]) = inr m ->
    exists acts c' e s1 s,
      DRIVE c t acts [FSave (payload_of e) (okb saved); FEvent (EvFailure s1); FEvent (EvComplete e);
                      FSave (payload_of (c_exec T c')) (okb saved'); FEvent (EvFailure s); FEvent (EvComplete (c_exec T c'))] c'
      /\ handler_answers acts = [inr (err, msg)]
      /\ we_status e = Failed /\ we_status_detail e = detail_of name (shown_error err) msg
      /\ failed_at c' t now name (failure_text name "InvalidResultPath" ("Failed to inject error information from result path into input: " ++ m)) s.
  Proof.
    intros Hi R (st & cfg0 & r & V & <-) L Hc Nr Hcat Hm Hp Hin.
    assert (I : INV c) by (eapply inv_reachable; eauto).
    pose proof (inv_threads _ _ _ _ _ I t _ V) as TI. cbn in TI. destruct TI as ((L1 & _) & K & _).
    cbn in L1. rewrite Hc in L1. inversion L1; subst cfg0. clear L1.
    destruct (fail_prefix render extract inject has_handler wait_time spec c t st cfg input r err msg saved now I V L) as
      (c1 & acts & exec' & s & r1 & att & D & HA & (v1 & Hr1) & V1 & X1 & K1 & F1 & F2 & F3 & F4 & F5 & F6 & F7 & F8 & F9).
    pose proof (not_retried_spec cfg _ Nr) as Er.
    set (q := matching_retry cfg (shown_error err)) in *.
    assert (Ec : match q with Some _ => negb match q with Some r => limit_zero r | None => false end | None => false end = false)
      by (destruct q; [now rewrite Er|reflexivity]).
    rewrite Ec in V1, F1.
    destruct (F1 eq_refl) as [F1a F1b]. rewrite Hr1 in V1.
    destruct (to_catch render extract inject has_handler wait_time spec c1 t _ _ _ _ _ _ _ _ now _ (match q as x return (match x with Some r => limit_zero r = true | None => True end -> match x with Some _ => match x with Some r => limit_zero r | None => false end = true | None => True end) with Some r => fun H => H | None => fun H => H end Er) V1) as (a3 & c3 & D3 & H3 & V3 & X3 & K3).
    set (e := {| ei_state := es_name st; ei_parent := None; ei_name := Some err; ei_msg := _ |}) in *.
    set (m' := ("Failed to inject error information from result path into input: " ++ m)%string).
    assert (S4 : STEP c3 t (PCatch T (sc_catch cfg) e input) now ANothing =
      Some (stay T c3 (PRecord T (es_name st) None "InvalidResultPath" m' true false KStop))).
    { cbn. rewrite Hcat. apply find_first in Hm. rewrite Hm. rewrite K3, K1.
      assert (prepare_input_from_catch inject rule e input = inr (mk_err InvalidResultPath (es_name st) None (Some "InvalidResultPath") m')) as ->; [|reflexivity].
      unfold prepare_input_from_catch. rewrite Hp. unfold e. cbn [ei_msg ei_name]. rewrite Hin. reflexivity. }
    destruct (GO c3 t _ _ now ANothing _ V3 S4) as (c4 & D4 & V4 & X4 & K4). cbn in V4, X4, K4, D4.
    destruct (record_stop c4 t _ _ _ true _ saved' now V4) as (a5 & c5 & s5 & D5 & H5 & F5'); [congruence| |].
    { unfold has_name in *. rewrite X4, X3, X1, F9. exact K. }
    pose proof (APP _ _ _ _ _ _ _ _ D (APP _ _ _ _ _ _ _ _ D3 (APP _ _ _ _ _ _ _ _ D4 D5))) as DD.
    cbn [app] in DD. eexists. exists c5, exec', s, s5. split; [exact DD|].
    split. { unfold handler_answers in *. rewrite flat_map_app, HA. cbn [app]. rewrite flat_map_app, H3. cbn [flat_map a_answer app]. rewrite H5. reflexivity. }
    auto.
  Qed.

  (** The end of an execution that cannot be saved. *)
  Lemma unsaved_end c t name input o v initial cfg m (now : Z) :
    we_states initial = [] -> REACH initial c -> awaiting c t name input -> c_lock T c = None ->
    lookup name (ws_states spec) = Some cfg -> passes_on extract inject cfg input o v ->
    sc_next cfg = None -> sc_end cfg = Some true -> ~ In "unknown" (map es_name (we_states (c_exec T c))) ->
    exists acts c' p q, DRIVE c t acts [FSave p true; FSave q false] c' /\ handler_answers acts = [inl o] /\ crashed_thread c' t
      /\ sp_status p = we_status (c_exec T c) /\ sp_status q = Succeeded
      /\ In (ASaved (Some m)) (map a_answer acts).
  Proof.
    intros Hi R A L Hc Hp Nx En Nu.
    destruct (answered_state c t name input o v initial cfg now Hi R A L Hc Hp) as (a1 & c1 & st & r & D1 & H1 & V1 & N1 & K1 & _ & s0 & _ & _ & _ & _ & Nm & Ns).
    assert (S2 : STEP c1 t (PCompletedSave T v st cfg input None) now (ASaved None) =
      Some (with_effects T (with_lock T (stay T c1 (PFinish T v input)) None) [FSave (payload_of (c_exec T c1)) true])).
    { cbn. rewrite Nx, En. reflexivity. }
    destruct (GO_NONE c1 t _ _ now (ASaved None) _ V1 S2 eq_refl) as (c2 & D2 & V2 & X2 & K2). cbn in V2, X2, K2, D2.
    assert (S3 : STEP c2 t (PFinish T v input) now ANothing =
      Some (with_lock T (with_exec T (stay T c2 (PFinishSave T v input)) (complete_execution now (c_exec T c2))) (Some t))).
    { cbn. rewrite K2. reflexivity. }
    destruct (GO_NONE c2 t _ _ now ANothing _ V2 S3 eq_refl) as (c3 & D3 & V3 & X3 & K3). cbn in V3, X3, K3, D3.
    destruct (GO_NONE c3 t _ _ now (ASaved (Some m)) _ V3 eq_refl eq_refl) as (c4 & D4 & V4 & X4 & K4). cbn in V4, X4, K4, D4.
    destruct (GO c4 t _ _ now ANothing _ V4 eq_refl) as (c5 & D5 & V5 & X5 & K5). cbn in X5, K5, D5.
    assert (exists r5, view c5 t (PRecord T "unknown" None "PersistFailed" ("Failed to persist workflow execution completion: " ++ m) false false KStop) r5) as [r5 V5'] by (destruct r; eexists; exact V5).
    assert (S6 : exists ex, STEP c5 t (PRecord T "unknown" None "PersistFailed" ("Failed to persist workflow execution completion: " ++ m) false false KStop) now ANothing = Some (with_exec T (stay T c5 (PPanicked T)) ex)).
    { cbn [step_pc]. rewrite K5, K4. eexists.
      destruct (update_state "unknown" None _ _) as [[sts s]|] eqn:Eu; [|reflexivity]. exfalso.
      apply update_state_none_some in Eu. destruct Eu as (pre & s1 & post & Es & Hn1 & _). apply Nu. rewrite <- Nm, <- X2.
      cbn in Es. rewrite X5, X4, X3 in Es. cbn in Es. rewrite Es, map_app. apply in_or_app. right. left. exact Hn1. }
    destruct S6 as [ex S6]. destruct (GO _ _ _ _ _ _ _ V5' S6) as (c6 & D6 & V6 & X6 & K6). cbn in D6.
    pose proof (APP _ _ _ _ _ _ _ _ D1 (APP _ _ _ _ _ _ _ _ D2 (APP _ _ _ _ _ _ _ _ D3 (APP _ _ _ _ _ _ _ _ D4 (APP _ _ _ _ _ _ _ _ D5 D6))))) as DD. cbn [app] in DD.
    eexists. exists c6, (payload_of (c_exec T c1)). eexists. split; [exact DD|].
    split. { unfold handler_answers in *. rewrite flat_map_app, H1. reflexivity. }
    split; [destruct r5; eexists; exact V6|]. split; [exact Ns|]. split; [cbn; rewrite X3; reflexivity|].
    rewrite map_app. apply in_or_app. right. cbn. auto.
  Qed.
End Fail.
