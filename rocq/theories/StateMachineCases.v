(** Particular situations of an execution: joining parallel branches, errors that
    end it, and errors nothing is recorded for (C16, C18-C20). *)
From Verif Require Import Base Json WfTypes StateMachineModel StateMachineSpec StateMachineProofs StateMachineSeq StateMachineErr StateMachineMore.
Open Scope string_scope.

Section Cases.
  Context {T : Type}.
  Variable render : T -> json -> json + render_error.
  Variable extract : json -> string -> json + string.
  Variable inject : json -> string -> json -> json + string.
  Variable has_handler : string -> bool.
  Variable wait_time : wait_config -> json -> Z -> N + (bool * option string * string).
  Variable spec : workflow_spec T.
  Notation STEP := (step_pc T render extract inject has_handler wait_time spec).
  Notation SM_STEP := (sm_step T render extract inject has_handler wait_time spec).
  Notation RUN := (sm_run T render extract inject has_handler wait_time spec).
  Notation INV := (inv render extract has_handler spec).
  Notation REACH := (reachable render extract inject has_handler wait_time spec).
  Notation DRIVE := (drive render extract inject has_handler wait_time spec).
  Notation GO := (go render extract inject has_handler wait_time spec).
  Notation GO_NONE := (go_none render extract inject has_handler wait_time spec).
  Notation APP := (drive_app render extract inject has_handler wait_time spec).
  Local Arguments error_detail : simpl never.

  Lemma drive_inv c t acts fs c' : INV c -> DRIVE c t acts fs c' -> INV c'.
  Proof. intros I (R & _). eapply inv_run; eauto. Qed.

  (** *** An error no rule applies to *)
  Lemma error_final c t kind fb e input ret cfg (saved : option string) (now : Z) :
    INV c -> view c t (PError T (kind, e) input) ret -> c_lock T c = None ->
    fallback_of kind = Some fb -> ei_parent e = None -> lookup (ei_state e) (ws_states spec) = Some cfg ->
    let err := derive_final_error_name e fb in
    not_retried err (sc_retry cfg) ->
    no_match (fun r => names_error (match ei_name e with Some n => n | None => "" end) (ct_match_errors r)) (sc_catch cfg) ->
    exists acts c' s,
      DRIVE c t acts [FSave (payload_of (c_exec T c')) (match saved with None => true | Some _ => false end);
                      FEvent (EvFailure s); FEvent (EvComplete (c_exec T c'))] c'
      /\ handler_answers acts = []
      /\ ended_thread c' t /\ c_lock T c' = None
      /\ we_status (c_exec T c') = Failed
      /\ we_status_detail (c_exec T c') = error_detail (ei_state e) err (ei_msg e)
      /\ In s (we_states (c_exec T c')) /\ es_name s = ei_state e /\ es_status s = Failed
      /\ es_error s = Some (error_detail (ei_state e) err (ei_msg e)) /\ es_completed s = Some now.
  Proof.
    intros I V L Hk Hp Hc err Nr Nc.
    destruct (fail_from_error render extract inject has_handler wait_time spec c t kind fb e input ret cfg saved now I V L Hk Hp Hc) as
      (c1 & acts & exec' & s & r1 & att & D & HA & (v1 & Hr1) & V1 & X1 & K1 & F1 & F2 & F3 & F4 & F5 & F6 & _ & _ & _).
    pose proof (not_retried_spec cfg err Nr) as Er.
    change (derive_final_error_name e fb) with err in V1, F1. set (m := matching_retry cfg err) in *.
    assert (Ec : match m with Some _ => negb match m with Some r => limit_zero r | None => false end | None => false end = false)
      by (destruct m; [now rewrite Er|reflexivity]).
    rewrite Ec in V1, F1.
    destruct (F1 eq_refl) as [F1a F1b]. rewrite Hr1 in V1.
    destruct (to_catch render extract inject has_handler wait_time spec c1 t _ _ _ _ _ _ _ _ now _ (match m as x return (match x with Some r => limit_zero r = true | None => True end -> match x with Some _ => match x with Some r => limit_zero r | None => false end = true | None => True end) with Some r => fun H => H | None => fun H => H end Er) V1) as (a3 & c3 & D3 & H3 & V3 & X3 & K3).
    assert (S4 : STEP c3 t (PCatch T (sc_catch cfg) e input) now ANothing = Some (stay T c3 (PDone T None))).
    { cbn. destruct (sc_catch cfg) as [rules|] eqn:Ecat; [|reflexivity].
      match goal with |- context [List.find ?f rules] => assert (List.find f rules = None) as -> end; [|reflexivity].
      apply find_no_match. intros x Hx. exact (Nc rules x eq_refl Hx). }
    destruct (GO c3 t _ _ now ANothing _ V3 S4) as (c4 & D4 & V4 & X4 & K4). cbn in V4, X4, K4, D4.
    pose proof (APP _ _ _ _ _ _ _ _ D (APP _ _ _ _ _ _ _ _ D3 D4)) as DD.
    cbn [app] in DD.
    assert (XE : c_exec T c4 = exec') by congruence.
    eexists; exists c4, s. rewrite XE. split; [exact DD|]. split.
    { unfold handler_answers in *. rewrite flat_map_app, HA. cbn [app]. rewrite flat_map_app, H3. reflexivity. }
    split; [eexists; eexists; exact V4|]. split; [congruence|]. auto 10.
  Qed.

  (** A handler's answer whose result or output path cannot be applied. *)
  Lemma output_failure_final c t name input o m (saved : option string) (now : Z) initial cfg :
    we_states initial = [] -> REACH initial c ->
    awaiting c t name input -> c_lock T c = None -> lookup name (ws_states spec) = Some cfg ->
    let err := match sc_result_path cfg with Some _ => "InvalidResultPath" | None => "InvalidOutputPath" end in
    let cause := match sc_result_path cfg with
                 | Some _ => "Failed to inject output from result path into input: " ++ m
                 | None => "Failed to extract value from output JSON path: " ++ m
                 end in
    match sc_result_path cfg, sc_output_path cfg with
    | Some p, _ => inject input p o = inr m
    | None, Some p => extract o p = inr m
    | None, None => False
    end ->
    not_retried err (sc_retry cfg) ->
    no_match (fun r => names_error err (ct_match_errors r)) (sc_catch cfg) ->
    exists acts c' s,
      DRIVE c t acts [FSave (payload_of (c_exec T c')) (match saved with None => true | Some _ => false end);
                      FEvent (EvFailure s); FEvent (EvComplete (c_exec T c'))] c'
      /\ handler_answers acts = [inl o] /\ ended_thread c' t /\ c_lock T c' = None
      /\ we_status (c_exec T c') = Failed
      /\ we_status_detail (c_exec T c') = failure_text name err cause
      /\ In s (we_states (c_exec T c')) /\ es_name s = name /\ es_status s = Failed
      /\ es_error s = Some (failure_text name err cause) /\ es_completed s = Some now.
  Proof.
    intros Hi R (st & cfg0 & r & V & Hn) L Hc err cause He Nr Nc.
    assert (I : INV c) by (eapply inv_reachable; eauto).
    pose proof (inv_threads _ _ _ _ _ I t _ V) as K. cbn in K.
    assert (cfg0 = cfg).
    { destruct K as ((K1 & _) & _). unfold derive_state_config in K1. rewrite Hn, Hc in K1. now inversion K1. }
    subst cfg0.
    assert (S1 : STEP c t (PHandler T st cfg input None) now (AHandler (inl o)) =
      Some (stay T c (PSuccess T o st cfg input None))) by reflexivity.
    destruct (GO_NONE _ _ _ _ _ _ _ V S1 eq_refl) as (c1 & D1 & V1 & X1 & K1). cbn in V1, X1, K1, D1.
    assert (exists kind e, STEP c1 t (PSuccess T o st cfg input None) now ANothing =
      Some (stay T c1 (PError T (kind, e) input)) /\ fallback_of kind = Some err /\ ei_parent e = None
      /\ ei_state e = name /\ ei_name e = Some err /\ ei_msg e = cause) as (kind & e & S2 & E1 & E2 & E3 & E4 & E5).
    { cbn. unfold prepare_state_output. subst err cause. destruct (sc_result_path cfg) as [p|].
      - rewrite He. do 2 eexists. split; [reflexivity|]. cbn. auto.
      - destruct (sc_output_path cfg) as [p|]; [|contradiction]. rewrite He.
        do 2 eexists. split; [reflexivity|]. cbn. auto. }
    destruct (GO_NONE _ _ _ _ _ _ _ V1 S2 eq_refl) as (c2 & D2 & V2 & X2 & K2). cbn in V2, X2, K2, D2.
    assert (Ed : derive_final_error_name e err = err).
    { unfold derive_final_error_name. rewrite E4. unfold err. destruct (sc_result_path cfg); reflexivity. }
    assert (V2' : view c2 t (PError T (kind, e) input) r) by (destruct r; exact V2).
    destruct (error_final c2 t kind err e input r cfg saved now) as
      (acts & c3 & s & D3 & HA & En & L3 & W1 & W2 & W3 & W4 & W5 & W6 & W7); auto.
    - eapply drive_inv; [|exact D2]. eapply drive_inv; [exact I|exact D1].
    - congruence.
    - now rewrite E3.
    - now rewrite Ed.
    - now rewrite E4.
    - pose proof (APP _ _ _ _ _ _ _ _ D1 (APP _ _ _ _ _ _ _ _ D2 D3)) as DD. cbn [app] in DD.
      eexists. exists c3, s. split; [exact DD|]. split; [unfold handler_answers in *; cbn; now rewrite HA|]. rewrite Ed, E3, E5 in *. auto 12.
  Qed.

  (** *** Parallel states *)
  Lemma branches_started c t name cfg input bs :
    running c t name cfg input -> sc_type cfg = Parallel -> sc_parallel_branches cfg = Some bs -> bs <> [] ->
    exists a c', SM_STEP c a = Some c' /\ a_thread a = t
      /\ joining c' t (seq (length (c_threads T c)) (length bs)) name cfg input
      /\ forall i b, nth_error bs i = Some b ->
           (lookup (fst b) (snd b) <> None -> starting c' (length (c_threads T c) + i) (fst b) input (Some name))
           /\ (lookup (fst b) (snd b) = None -> branch_failed c' (length (c_threads T c) + i)).
  Proof.
    intros (st & r & V & Hn) Ht Hb Hne.
    assert (Hlt : t < length (c_threads T c)) by (apply nth_error_Some; congruence).
    assert (S : STEP c t (PBody T st cfg input None) 0%Z ANothing = Some
      {| o_pc := PJoin T (seq (length (c_threads T c)) (length bs)) st cfg input; o_ret := None;
         o_exec := c_exec T c; o_lock := c_lock T c; o_effects := [];
         o_spawn := spawn_branches T (es_name st) input bs |}).
    { cbn -[spawn_branches seq]. rewrite Ht, Hb. destruct bs; [congruence|reflexivity]. }
    exists {| a_thread := t; a_now := 0%Z; a_answer := ANothing |}. eexists.
    split; [unfold sm_step; cbn [a_thread a_now a_answer]; rewrite V; cbn [th_pc]; rewrite S; reflexivity|].
    split; [reflexivity|]. cbn [o_pc o_ret o_spawn th_ret].
    split.
    { exists st. eexists. split; [|exact Hn]. cbn [c_threads]. rewrite nth_error_app1 by now rewrite set_nth_length.
      erewrite nth_set_nth_eq by exact V. reflexivity. }
    intros i b Hi.
    assert (E : forall th, nth_error (spawn_branches T (es_name st) input bs) i = Some th ->
      nth_error (set_nth t {| th_pc := final_pc T (match r with Some r0 => Some r0 | None => None end)
            (PJoin T (seq (length (c_threads T c)) (length bs)) st cfg input);
          th_ret := match r with Some r0 => Some r0 | None => None end |} (c_threads T c)
         ++ spawn_branches T (es_name st) input bs) (length (c_threads T c) + i) = Some th).
    { intros th E. rewrite nth_error_app2 by (rewrite set_nth_length; lia). rewrite set_nth_length.
      replace (length (c_threads T c) + i - length (c_threads T c)) with i by lia. exact E. }
    specialize (E _ (map_nth_error _ i bs Hi)).
    split; intros Hl.
    - exists None. cbn [c_threads]. rewrite E, Hn.
      match goal with |- Some (match ?x with _ => _ end) = _ => change (x <> None) in Hl; destruct x end; [reflexivity|congruence].
    - left. eexists. cbn [c_threads]. rewrite E.
      match goal with |- Some (match ?x with _ => _ end) = _ => change (x = None) in Hl; rewrite Hl end. reflexivity.
  Qed.

  Lemma join_results_fwd c ks rs : join_results T c ks = Some rs ->
    Forall2 (fun k r => match r with Some v => delivers c k v | None => branch_failed c k end) ks rs.
  Proof.
    revert rs. induction ks as [|k ks IH]; cbn; intros rs H; [inversion H; constructor|].
    destruct (nth_error (c_threads T c) k) as [[p r]|] eqn:E; [|discriminate].
    destruct p; try discriminate; destruct (join_results T c ks) as [vs|] eqn:J; try discriminate; inversion H; subst;
      constructor; auto.
    - destruct r0; [eexists; exact E|left; eexists; exact E].
    - right. eexists. exact E.
  Qed.
  Lemma join_results_bwd c ks rs :
    Forall2 (fun k r => match r with Some v => delivers c k v | None => branch_failed c k end) ks rs ->
    join_results T c ks = Some rs.
  Proof.
    induction 1 as [|k r ks rs H F IH]; [reflexivity|]. cbn. destruct r as [v|].
    - destruct H as (r & E). rewrite E, IH. reflexivity.
    - destruct H as [(r & E)|(r & E)]; rewrite E, IH; reflexivity.
  Qed.

  (** A parallel state goes on exactly when all its branches are over. *)
  Lemma join_waits c t ks name cfg input : joining c t ks name cfg input ->
    ((exists a c', SM_STEP c a = Some c' /\ a_thread a = t)
     <-> Forall (fun k => ended_thread c k \/ crashed_thread c k) ks).
  Proof.
    intros (st & r & V & Hn). split.
    - intros (a & c' & S & Ht). unfold sm_step in S. rewrite Ht, V in S. cbn [th_pc] in S.
      destruct (a_answer a); try discriminate. cbn in S.
      destruct (join_results T c ks) as [rs|] eqn:J; [|discriminate].
      apply join_results_fwd in J. clear - J. induction J as [|k r ks rs H F IH]; constructor; auto.
      destruct r as [v|].
      + destruct H as (r & E). left. eexists; eexists; exact E.
      + destruct H as [(r & E)|H]; [left; eexists; eexists; exact E|right; exact H].
    - intros F. assert (join_results T c ks <> None) as J.
      { clear - F. induction F as [|k ks H F IH]; cbn; [discriminate|].
        destruct (join_results T c ks) as [rs|]; [|congruence].
        destruct H as [(v & r & E)|(r & E)]; rewrite E; discriminate. }
      destruct (join_results T c ks) as [rs|] eqn:Ej; [|congruence].
      exists {| a_thread := t; a_now := 0%Z; a_answer := ANothing |}. eexists. split; [|reflexivity].
      unfold sm_step. cbn [a_thread a_now a_answer]. rewrite V. cbn [th_pc step_pc]. rewrite Ej. reflexivity.
  Qed.

  (** All branches delivered: their values in branch order are the state's output. *)
  Lemma join_success c t ks name cfg input initial vs final (now : Z) :
    we_states initial = [] -> REACH initial c -> c_lock T c = None ->
    joining c t ks name cfg input -> Forall2 (delivers c) ks vs ->
    passes_on extract inject cfg input (JArr vs) final ->
    exists acts c' p s,
      DRIVE c t acts [FSave p true] c' /\ handler_answers acts = [] /\ c_lock T c' = None
      /\ p = payload_of (c_exec T c') /\ In s (sp_states p) /\ es_name s = name /\ es_status s = Succeeded
      /\ es_raw_output s = Some (JArr vs) /\ es_output s = Some final /\ es_completed s = Some now.
  Proof.
    intros Hi R L (st & r & V & Hn) F P.
    assert (I : INV c) by (eapply inv_reachable; eauto).
    pose proof (inv_threads _ _ _ _ _ I t _ V) as K. cbn in K.
    assert (J : join_results T c ks = Some (map Some vs)).
    { apply join_results_bwd. clear - F. induction F; cbn; constructor; auto. }
    assert (S1 : STEP c t (PJoin T ks st cfg input) now ANothing = Some (stay T c (PSuccess T (JArr vs) st cfg input None))).
    { cbn. rewrite J. f_equal. clear. induction vs as [|v vs IH]; [reflexivity|].
      cbn. destruct (existsb _ (map Some vs)) eqn:E.
      - exfalso. clear - E. induction vs; cbn in E; [discriminate|auto].
      - unfold stay in *. inversion IH. rewrite !H0. reflexivity. }
    destruct (GO_NONE c t _ _ now ANothing _ V S1 eq_refl) as (c1 & D1 & V1 & X1 & K1). cbn in V1, X1, K1, D1.
    assert (S2 : STEP c1 t (PSuccess T (JArr vs) st cfg input None) now ANothing =
      Some (stay T c1 (PCompleted T (JArr vs) final st cfg input None))).
    { cbn. erewrite output_ok by exact P. reflexivity. }
    destruct (GO_NONE c1 t _ _ now ANothing _ V1 S2 eq_refl) as (c2 & D2 & V2 & X2 & K2). cbn in V2, X2, K2, D2.
    destruct (update_state (es_name st) None (complete_state now (JArr vs) final) (we_states (c_exec T c2))) as [[sts x]|] eqn:Eu.
    2: { apply update_state_none_none in Eu. exfalso. apply Eu. rewrite X2, X1. exact K. }
    assert (S3 : STEP c2 t (PCompleted T (JArr vs) final st cfg input None) now ANothing =
      Some (with_lock T (with_exec T (stay T c2 (PCompletedSave T final st cfg input None))
                      (with_states (c_exec T c2) sts)) (Some t))).
    { cbn. rewrite K2, K1, L, Eu. reflexivity. }
    destruct (GO_NONE c2 t _ _ now ANothing _ V2 S3 eq_refl) as (c3 & D3 & V3 & X3 & K3). cbn in V3, X3, K3, D3.
    assert (exists o, STEP c3 t (PCompletedSave T final st cfg input None) now (ASaved None) = Some o
      /\ o_exec T o = c_exec T c3 /\ o_lock T o = None /\ o_effects T o = [FSave (payload_of (c_exec T c3)) true]) as
      (o & S4 & O1 & O2 & O3).
    { cbn. destruct (sc_next cfg); [eexists; split; [reflexivity|auto]|].
      destruct (match sc_end cfg with Some b => b | None => false end); eexists; (split; [reflexivity|auto]). }
    destruct (GO c3 t _ _ now (ASaved None) _ V3 S4) as (c4 & D4 & V4 & X4 & K4).
    rewrite O3 in D4. rewrite O1 in X4. rewrite O2 in K4.
    pose proof (APP _ _ _ _ _ _ _ _ D1 (APP _ _ _ _ _ _ _ _ D2 (APP _ _ _ _ _ _ _ _ D3 D4))) as DD.
    cbn [app] in DD.
    apply update_state_none_some in Eu. destruct Eu as (pre & s1 & post & Es & Hn' & Ests & Hs & Hni).
    eexists. exists c4, (payload_of (c_exec T c3)), x.
    split; [exact DD|]. split; [reflexivity|]. split; [exact K4|]. split; [congruence|].
    split. { rewrite X3. cbn. rewrite Ests. apply in_or_app. right. left. congruence. }
    rewrite Hs. cbn. repeat split; auto. congruence.
  Qed.

  (** A branch failed: so does the parallel state. *)
  Lemma join_failure c t ks name cfg input initial (saved : option string) (now : Z) :
    we_states initial = [] -> REACH initial c -> c_lock T c = None ->
    joining c t ks name cfg input -> Forall (fun k => ended_thread c k \/ crashed_thread c k) ks ->
    (exists k, In k ks /\ branch_failed c k) -> lookup name (ws_states spec) = Some cfg ->
    not_retried "BranchesFailed" (sc_retry cfg) ->
    no_match (fun r => names_error "BranchesFailed" (ct_match_errors r)) (sc_catch cfg) ->
    exists acts c' s,
      DRIVE c t acts [FSave (payload_of (c_exec T c')) (match saved with None => true | Some _ => false end);
                      FEvent (EvFailure s); FEvent (EvComplete (c_exec T c'))] c'
      /\ handler_answers acts = [] /\ ended_thread c' t /\ c_lock T c' = None
      /\ we_status (c_exec T c') = Failed
      /\ In s (we_states (c_exec T c')) /\ es_name s = name /\ es_status s = Failed /\ es_completed s = Some now.
  Proof.
    intros Hi R L (st & r & V & Hn) F (k & Hk & Hf) Hc Nr Nc.
    assert (I : INV c) by (eapply inv_reachable; eauto).
    assert (exists rs, join_results T c ks = Some rs /\ existsb (fun r => match r with None => true | Some _ => false end) rs = true) as (rs & J & E).
    { clear - F Hk Hf. induction F as [|k' ks H F IH]; [destruct Hk|].
      assert (exists rs, join_results T c ks = Some rs) as (rs0 & J0).
      { clear - F. induction F as [|k ks H F IH]; cbn; [eauto|]. destruct IH as (rs & ->).
        destruct H as [(v & r & E)|(r & E)]; rewrite E; eauto. }
      destruct Hk as [->|Hk].
      - cbn. destruct Hf as [(r & E)|(r & E)]; rewrite E, J0; eexists; (split; [reflexivity|reflexivity]).
      - destruct (IH Hk) as (rs & J & E). rewrite J in J0. inversion J0; subst rs0. cbn. rewrite J.
        destruct H as [(v & r & E')|(r & E')]; rewrite E'; eexists; (split; [reflexivity|]); cbn; [rewrite E; now destruct v|reflexivity]. }
    set (e := {| ei_state := es_name st; ei_parent := None; ei_name := Some "BranchesFailed"; ei_msg := "branches failed" |}).
    assert (S1 : STEP c t (PJoin T ks st cfg input) now ANothing = Some (stay T c (PError T (ParallelBranchesFailed, e) input))).
    { cbn. rewrite J, E. reflexivity. }
    destruct (GO_NONE c t _ _ now ANothing _ V S1 eq_refl) as (c1 & D1 & V1 & X1 & K1). cbn in V1, X1, K1, D1.
    destruct (error_final c1 t ParallelBranchesFailed "ParallelBranchesFailed" e input r cfg saved now) as
      (acts & c2 & s & D2 & HA & En & L2 & W1 & W2 & W3 & W4 & W5 & W6 & W7); auto.
    - eapply drive_inv; eauto.
    - congruence.
    - cbn. now rewrite Hn.
    - pose proof (APP _ _ _ _ _ _ _ _ D1 D2) as DD. cbn [app] in DD.
      eexists. exists c2, s. split; [exact DD|]. split; [exact HA|]. rewrite <- Hn. auto 10.
  Qed.

  (** *** Errors nothing is recorded for *)
  Lemma run_main (P : config T -> Prop) initial :
    P (sm_init T spec initial) -> (forall c a c', P c -> SM_STEP c a = Some c' -> P c') ->
    forall c, REACH initial c -> P c.
  Proof.
    intros P0 PS c (acts & R). revert R. generalize (sm_init T spec initial) P0. clear P0.
    induction acts as [|a acts IH]; cbn; intros c0 P0 R; [inversion R; now subst|].
    destruct (SM_STEP c0 a) as [c1|] eqn:E; [|discriminate]. eapply IH; [|exact R]. eauto.
  Qed.

  Lemma single_step c a c' th : c_threads T c = [th] -> SM_STEP c a = Some c' ->
    a_thread a = 0 /\ exists o, STEP c 0 (th_pc T th) (a_now a) (a_answer a) = Some o /\
    let ret := match th_ret T th with Some r => Some r | None => o_ret T o end in
    c' = {| c_exec := o_exec T o; c_lock := o_lock T o;
            c_threads := {| th_pc := final_pc T ret (o_pc T o); th_ret := ret |} :: o_spawn T o;
            c_log := (c_log T c ++ map (pair 0) (o_effects T o))%list |}.
  Proof.
    intros E H. apply sm_step_inv in H. destruct H as (th' & o & Hth & Hs & ->). rewrite E in *.
    destruct (a_thread a) as [|[|n]]; cbn in Hth; try discriminate. inversion Hth; subst th'.
    split; [reflexivity|]. exists o. split; [exact Hs|]. reflexivity.
  Qed.

  (** The start state does not exist: nothing is ever saved or announced. *)
  Lemma missing_start initial c : we_states initial = [] -> lookup (ws_start_at spec) (ws_states spec) = None ->
    REACH initial c -> c_log T c = [].
  Proof.
    intros Hi Hm R.
    set (e := {| ei_state := ws_start_at spec; ei_parent := None; ei_name := None; ei_msg := "State not found in workflow spec" |}).
    enough (G : c_log T c = [] /\ we_states (c_exec T c) = [] /\ exists th, c_threads T c = [th] /\
      match th_pc T th with
      | PStart _ n _ _ None => n = ws_start_at spec
      | PError _ (StateNotFound, e') _ => e' = e
      | PRecord _ _ None _ _ _ _ _ => True
      | PPanicked _ => True
      | _ => False end) by apply G.
    revert c R. apply run_main.
    - cbn. repeat split; auto. eexists. split; reflexivity.
    - intros c a c' (G1 & G2 & th & G3 & G4) H.
      destruct (single_step c a c' th G3 H) as (_ & o & Hs & ->). cbn [c_log c_exec c_threads].
      destruct th as [p r]. cbn [th_pc th_ret] in *.
      destruct p; try contradiction; try (destruct parent; try contradiction); destruct (a_answer a); cbn in Hs; try discriminate Hs.
      + subst name. rewrite Hm in Hs. inversion Hs; subst; clear Hs. cbn. rewrite app_nil_r. repeat split; auto.
        eexists. split; [reflexivity|]. cbn. destruct r; reflexivity.
      + destruct e0 as [k e']; destruct k; try contradiction. subst e'. inversion Hs; subst; clear Hs. cbn. rewrite app_nil_r.
        repeat split; auto. eexists. split; [reflexivity|]. cbn. destruct r; exact Logic.I.
      + destruct e0; discriminate.
      + destruct e0; discriminate.
      + destruct (c_lock T c); [discriminate|].
        assert (Ez : we_states (if can_continue then c_exec T c else fail_execution (error_detail name ename msg) (c_exec T c)) = []) by (destruct can_continue; assumption).
        rewrite Ez in Hs. cbn [update_state] in Hs.
        inversion Hs; subst; clear Hs. cbn. rewrite app_nil_r.
        split; [assumption|]. split; [exact Ez|].
        eexists. split; [reflexivity|]. cbn. destruct r; exact Logic.I.
  Qed.

  (** The input path of the start state selects nothing and no rule catches that:
      again nothing is ever saved or announced. *)
  Lemma silent_input_path initial cfg p m c : lookup (ws_start_at spec) (ws_states spec) = Some cfg ->
    sc_input_path cfg = Some p -> extract (we_input initial) p = inr m ->
    no_match (fun r => names_error "InvalidInputPath" (ct_match_errors r)) (sc_catch cfg) ->
    REACH initial c -> c_log T c = [] /\ c_exec T c = initial.
  Proof.
    intros Hc Hp He Nc R.
    enough (G : (c_log T c = [] /\ c_exec T c = initial) /\ exists th, c_threads T c = [th] /\
      match th_pc T th with
      | PStart _ n i _ None => n = ws_start_at spec /\ i = we_input initial
      | PError _ (InvalidInputPath, e') _ => ei_state e' = ws_start_at spec /\ ei_parent e' = None /\ ei_name e' = Some "InvalidInputPath"
      | PCatch _ ct e' _ => ct = sc_catch cfg /\ ei_name e' = Some "InvalidInputPath"
      | PDone _ _ => True
      | _ => False end) by apply G.
    revert c R. apply run_main.
    - cbn. repeat split; auto. eexists. split; [reflexivity|]. split; reflexivity.
    - intros c a c' ((G1 & G2) & th & G3 & G4) H.
      destruct (single_step c a c' th G3 H) as (_ & o & Hs & ->). cbn [c_log c_exec c_threads].
      destruct th as [q r]. cbn [th_pc th_ret] in *.
      destruct q; try contradiction; try (destruct parent; try contradiction); destruct (a_answer a); cbn in Hs; try discriminate Hs.
      + destruct G4 as [-> ->]. rewrite Hc in Hs. unfold prepare_state_input in Hs. rewrite Hp, He in Hs.
        inversion Hs; subst; clear Hs. cbn. rewrite app_nil_r. repeat split; auto.
        eexists. split; [reflexivity|]. cbn. destruct r; repeat split.
      + destruct e as [k e']; destruct k; try contradiction. destruct G4 as (E1 & E2 & E3). inversion Hs; subst; clear Hs. cbn. rewrite app_nil_r.
        repeat split; auto. eexists. split; [reflexivity|]. cbn. rewrite E1, E2. cbn. rewrite Hc. destruct r; split; auto.
      + destruct e; discriminate.
      + destruct e; discriminate.
      + destruct G4 as [-> E3]. rewrite E3 in Hs.
        assert (Hd : o = stay T c (PDone T None)).
        { destruct (sc_catch cfg) as [rules|]; [|now inversion Hs].
          assert (List.find (fun x => error_matches "InvalidInputPath" (ct_match_errors x)) rules = None) as E.
          { apply find_no_match. intros x Hx. exact (Nc rules x eq_refl Hx). }
          rewrite E in Hs. now inversion Hs. }
        subst o. cbn. rewrite app_nil_r. repeat split; auto.
        eexists. split; [reflexivity|]. cbn. destruct r; exact Logic.I.
  Qed.

  Lemma go1 c p r now ans o : c_threads T c = [ {| th_pc := p; th_ret := r |} ] -> STEP c 0 p now ans = Some o ->
    o_spawn T o = [] ->
    let r' := match r with Some x => Some x | None => o_ret T o end in
    exists c', DRIVE c 0 [ {| a_thread := 0; a_now := now; a_answer := ans |} ] (o_effects T o) c'
      /\ c_threads T c' = [ {| th_pc := final_pc T r' (o_pc T o); th_ret := r' |} ]
      /\ c_exec T c' = o_exec T o /\ c_lock T c' = o_lock T o.
  Proof.
    intros V S N r'. eexists. split; [|split; [|split]].
    - unfold drive. cbn [sm_run]. unfold sm_step. cbn [a_thread a_now a_answer]. rewrite V. cbn [nth_error th_pc]. rewrite S.
      cbn [th_ret]. split; [reflexivity|]. split; [repeat constructor|]. reflexivity.
    - cbn [c_threads set_nth]. now rewrite N.
    - reflexivity.
    - reflexivity.
  Qed.

  Lemma stuck c v r : c_threads T c = [ {| th_pc := PDone T v; th_ret := r |} ] -> forall a, SM_STEP c a = None.
  Proof.
    intros E a. unfold sm_step. rewrite E. destruct (a_thread a) as [|[|n]]; cbn; try reflexivity.
  Qed.

  (** The start state up to its announcement. *)
  Lemma first_state initial cfg i (now : Z) : lookup (ws_start_at spec) (ws_states spec) = Some cfg ->
    through extract (sc_input_path cfg) (we_input initial) i ->
    exists acts c p st, DRIVE (sm_init T spec initial) 0 acts [FSave p true; FEvent (EvTransition None st)] c
      /\ handler_answers acts = []
      /\ c_threads T c = [ {| th_pc := PBody T st cfg (we_input initial) None; th_ret := None |} ]
      /\ c_lock T c = None /\ we_status (c_exec T c) = InProgress
      /\ es_name st = ws_start_at spec /\ es_input st = i.
  Proof.
    intros Hc Hi. set (c0 := sm_init T spec initial).
    set (st := mk_exec_state (ws_start_at spec) (sc_type cfg) None i now None InProgress 1%Z None [] None None).
    assert (S1 : STEP c0 0 (PStart T (ws_start_at spec) (we_input initial) None None) now ANothing =
       Some (stay T c0 (PTransition T st cfg (we_input initial) None None))).
    { cbn. rewrite Hc. erewrite input_ok by exact Hi. reflexivity. }
    destruct (go1 c0 _ _ now ANothing _ eq_refl S1 eq_refl) as (c1 & D1 & V1 & X1 & K1). cbn in V1, X1, K1, D1.
    assert (S2 : STEP c1 0 (PTransition T st cfg (we_input initial) None None) now ANothing =
      Some (with_lock T (with_exec T (stay T c1 (PTransitionSave T st cfg (we_input initial) None None))
                  (transition_update (c_exec T c1) (es_name st) st)) (Some 0))).
    { cbn. rewrite K1. reflexivity. }
    destruct (go1 c1 _ _ now ANothing _ V1 S2 eq_refl) as (c2 & D2 & V2 & X2 & K2). cbn in V2, X2, K2, D2.
    destruct (go1 c2 _ _ now (ASaved None) _ V2 eq_refl eq_refl) as (c3 & D3 & V3 & X3 & K3). cbn in V3, X3, K3, D3.
    destruct (go1 c3 _ _ now ANothing _ V3 eq_refl eq_refl) as (c4 & D4 & V4 & X4 & K4). cbn in V4, X4, K4, D4.
    pose proof (APP _ _ _ _ _ _ _ _ D1 (APP _ _ _ _ _ _ _ _ D2 (APP _ _ _ _ _ _ _ _ D3 D4))) as DD.
    cbn [app] in DD. eexists. exists c4. eexists. exists st.
    split; [exact DD|]. split; [reflexivity|]. split; [exact V4|]. split; [exact K4|].
    split; [rewrite X4, X3, X2; reflexivity|]. split; reflexivity.
  Qed.

  (** The template of the start state fails and no rule matches every error: the
      execution ends, still recorded as in progress. *)
  Lemma silent_template initial cfg i tpl e : lookup (ws_start_at spec) (ws_states spec) = Some cfg ->
    through extract (sc_input_path cfg) (we_input initial) i ->
    sc_type cfg = ExecuteStep -> has_handler (ws_start_at spec) = true ->
    sc_payload_template cfg = Some tpl -> render tpl (we_input initial) = inr e ->
    no_match (fun r => names_error "" (ct_match_errors r)) (sc_catch cfg) ->
    exists acts c p st, DRIVE (sm_init T spec initial) 0 acts [FSave p true; FEvent (EvTransition None st)] c
      /\ ended_thread c 0 /\ (forall a, SM_STEP c a = None) /\ we_status (c_exec T c) = InProgress.
  Proof.
    intros Hc Hi Ht Hh Htp Hr Nc.
    destruct (first_state initial cfg i 0%Z Hc Hi) as (acts & c1 & p & st & D1 & _ & V1 & L1 & W1 & N1 & _).
    assert (exists kd err m, STEP c1 0 (PBody T st cfg (we_input initial) None) 0%Z ANothing =
      Some (stay T c1 (PError T (kd, err) (we_input initial)))
      /\ (kd = PayloadTemplateFailure \/ kd = InvalidPayloadTemplate)
      /\ err = {| ei_state := ws_start_at spec; ei_parent := None; ei_name := None; ei_msg := m |})
      as (kd & err & m & S2 & Hkd & Herr).
    { cbn. rewrite Ht, N1, Hh, Htp, Hr. destruct e; do 3 eexists; (split; [reflexivity|]); split; auto. }
    destruct (go1 c1 _ _ 0%Z ANothing _ V1 S2 eq_refl) as (c2 & D2 & V2 & X2 & K2). cbn in V2, X2, K2, D2.
    assert (S3 : STEP c2 0 (PError T (kd, err) (we_input initial)) 0%Z ANothing =
      Some (with_ret T (stay T c2 (PCatch T (sc_catch cfg) err (we_input initial))) None)).
    { subst err. cbn. rewrite Hc. destruct Hkd as [-> | ->]; reflexivity. }
    destruct (go1 c2 _ _ 0%Z ANothing _ V2 S3 eq_refl) as (c3 & D3 & V3 & X3 & K3). cbn in V3, X3, K3, D3.
    assert (S4 : STEP c3 0 (PCatch T (sc_catch cfg) err (we_input initial)) 0%Z ANothing = Some (stay T c3 (PDone T None))).
    { subst err. cbn. destruct (sc_catch cfg) as [rules|] eqn:Ecat; [|reflexivity].
      match goal with |- context [List.find ?f rules] => assert (List.find f rules = None) as -> end; [|reflexivity].
      apply find_no_match. intros x Hx. exact (Nc rules x eq_refl Hx). }
    destruct (go1 c3 _ _ 0%Z ANothing _ V3 S4 eq_refl) as (c4 & D4 & V4 & X4 & K4). cbn in V4, X4, K4, D4.
    pose proof (APP _ _ _ _ _ _ _ _ D1 (APP _ _ _ _ _ _ _ _ D2 (APP _ _ _ _ _ _ _ _ D3 D4))) as DD.
    cbn [app] in DD. eexists. exists c4, p, st. split; [exact DD|].
    split; [exists None; eexists; rewrite V4; reflexivity|].
    split; [eapply stuck; exact V4|]. congruence.
  Qed.

  (** The handler of the start state is given the whole input. *)
  Lemma raw_input initial cfg w : lookup (ws_start_at spec) (ws_states spec) = Some cfg ->
    sc_type cfg = ExecuteStep -> has_handler (ws_start_at spec) = true ->
    sc_payload_template cfg = None -> through extract (sc_input_path cfg) (we_input initial) w ->
    exists acts c p st,
      DRIVE (sm_init T spec initial) 0 acts
        [FSave p true; FEvent (EvTransition None st); FCall (ws_start_at spec) (we_input initial)] c
      /\ es_input st = w.
  Proof.
    intros Hc Ht Hh Htp Hi.
    destruct (first_state initial cfg w 0%Z Hc Hi) as (acts & c1 & p & st & D1 & _ & V1 & L1 & W1 & N1 & N2).
    assert (S2 : STEP c1 0 (PBody T st cfg (we_input initial) None) 0%Z ANothing =
      Some (with_effects T (stay T c1 (PHandler T st cfg (we_input initial) None)) [FCall (es_name st) (we_input initial)])).
    { cbn. rewrite Ht, N1, Hh, Htp. reflexivity. }
    destruct (go1 c1 _ _ 0%Z ANothing _ V1 S2 eq_refl) as (c2 & D2 & V2 & X2 & K2). cbn in V2, X2, K2, D2.
    rewrite N1 in D2. pose proof (APP _ _ _ _ _ _ _ _ D1 D2) as DD. cbn [app] in DD.
    eexists. exists c2, p, st. split; [exact DD|exact N2].
  Qed.
End Cases.
