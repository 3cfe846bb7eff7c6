(** C19: why the execution of a workflow ends without announcing a completion, and why it crashes - for
    every workflow and every schedule. *)
From Verif Require Import Base Json WfTypes StateMachineModel StateMachineSpec StateMachineProofs StateMachineErr StateMachineMore StateMachineProps StateMachineEndSpec.
Open Scope string_scope.

Section Ends.
  Context {T : Type}.
  Variable render : T -> json -> json + render_error.
  Variable extract : json -> string -> json + string.
  Variable inject : json -> string -> json -> json + string.
  Variable has_handler : string -> bool.
  Variable wait_time : wait_config -> json -> Z -> N + (bool * option string * string).
  Variable spec : workflow_spec T.
  Notation STEP := (step_pc T render extract inject has_handler wait_time spec).
  Notation SM_STEP := (sm_step T render extract inject has_handler wait_time spec).
  Notation INV := (inv render extract has_handler spec).
  Notation REACH := (reachable render extract inject has_handler wait_time spec).
  Notation state := (state spec).
  Notation asked_for := (asked_for spec).
  Notation goes_silent := (goes_silent render extract has_handler wait_time spec).
  Notation crashes := (crashes extract inject wait_time spec).

  Definition err_name (e : err_info) : string := match ei_name e with Some n => n | None => "" end.
  Definition err_json (e : err_info) : json :=
    JObj [("cause", JStr (ei_msg e)); ("error", match ei_name e with Some n => JStr n | None => JNull end)].
  Definition rules_of (e : err_info) : option (list catch_config) :=
    match lookup (ei_state e) (ws_states spec) with Some cfg => sc_catch cfg | None => None end.
  Definition catch_ok (catch : option (list catch_config)) : Prop :=
    forall rules r, catch = Some rules -> In r rules -> asked_for (ct_next r).
  Definition caught (kn : string -> Prop) (hist : list effect) (e : err_info) (input : json) (catch : option (list catch_config)) : Prop :=
    (completions hist <> [] \/ (no_match (fun r => names_error (err_name e) (ct_match_errors r)) catch -> goes_silent hist)) /\
    (kn (ei_state e) \/ forall rules r rp m, catch = Some rules -> first_match (fun r => names_error (err_name e) (ct_match_errors r)) rules r ->
       ct_result_path r = Some rp -> inject input rp (err_json e) = inr m -> crashes hist).
  Definition kont (kn : string -> Prop) (k : err_cont) : Prop :=
    match k with KStop => True | KRetryOrCatch e _ catch _ _ _ => ei_parent e = None /\ kn (ei_state e) /\ catch_ok catch end.
  Definition top (st : exec_state) (cfg : state_config T) (parent : option string) : Prop := parent = None /\ state (es_name st) cfg.
  Definition M (kn : string -> Prop) (hist : list effect) (p : pc T) : Prop :=
    match p with
    | PStart _ n _ _ parent => parent = None /\ (asked_for n \/ exists cfg, state n cfg)
    | PTransition _ st cfg _ _ parent | PTransitionSave _ st cfg _ _ parent | PTransitionEvent _ st cfg _ _ parent
    | PBody _ st cfg _ parent | PHandler _ st cfg _ parent | PSuccess _ _ st cfg _ parent | PCompleted _ _ _ st cfg _ parent
    | PCompletedSave _ _ st cfg _ parent => top st cfg parent
    | PJoin _ _ st cfg _ => state (es_name st) cfg
    | PFinish _ _ _ | PFinishSave _ _ _ | PFinishEvent _ _ => True
    | PError _ (k, e) input => ei_parent e = None /\
        if catch_only k then caught kn hist e input (rules_of e) else kn (ei_state e) \/ crashes hist
    | PCheckAttempts _ _ e _ catch _ => ei_parent e = None /\ kn (ei_state e) /\ catch_ok catch
    | PRecord _ n parent _ _ _ _ k => parent = None /\ (kn n \/ crashes hist) /\ kont kn k
    | PRecordSave _ _ _ _ k | PRecordEvent _ _ _ _ k | PRecordComplete _ _ k => kont kn k
    | PRetry _ e _ => ei_parent e = None /\ exists cfg, state (ei_state e) cfg
    | PCatch _ catch e input => ei_parent e = None /\ catch_ok catch /\ caught kn hist e input catch
    | PDone _ _ => completions hist <> [] \/ goes_silent hist
    | PPanicked _ => crashes hist
    end.

  Lemma kont_mono (kn kn' : string -> Prop) k : (forall n, kn n -> kn' n) -> kont kn k -> kont kn' k.
  Proof. intros H. destruct k; cbn; [auto|]. intros (? & ? & ?); auto. Qed.
  Lemma M_mono (kn kn' : string -> Prop) hist p : (forall n, kn n -> kn' n) -> M kn hist p -> M kn' hist p.
  Proof.
    intros H. destruct p; cbn; auto; try (apply kont_mono; exact H).
    - destruct e as [k e]. destruct (catch_only k); [|intros (? & [?|?]); auto]. intros (? & ? & [?|?]); split; auto; split; auto.
    - intros (? & ? & ?); auto.
    - intros (? & [?|?] & ?); (split; [assumption|]); (split; [auto|eapply kont_mono; eauto]).
    - intros (? & ? & ? & [?|?]); repeat split; auto.
  Qed.
  Lemma M_final kn hist ret p : M kn hist p -> M kn hist (final_pc T ret p).
  Proof. destruct p, ret; auto. Qed.

  Lemma config_state n cfg : derive_state_config T spec n None = inl cfg -> state n cfg.
  Proof. unfold derive_state_config. unfold StateMachineEndSpec.state. destruct (lookup n (ws_states spec)); [|discriminate]. congruence. Qed.
  Lemma rules_ok e : catch_ok (rules_of e).
  Proof.
    intros rules r E Hr. unfold rules_of in E. destruct (lookup (ei_state e) (ws_states spec)) as [cfg|] eqn:L; [|discriminate].
    right. exists (ei_state e), cfg. split; [exact L|]. right. eauto.
  Qed.
  Lemma derive_rules e : ei_parent e = None ->
    match derive_state_config T spec (ei_state e) (ei_parent e) with inl cfg => sc_catch cfg | inr _ => None end = rules_of e.
  Proof. intros ->. unfold derive_state_config, rules_of. destruct (lookup (ei_state e) (ws_states spec)); reflexivity. Qed.
  Lemma app_just h p prev st : just_started (h ++ [FSave p true; FEvent (EvTransition prev st)])%list (es_name st).
  Proof. exists (h ++ [FSave p true])%list, prev, st. rewrite <- app_assoc. auto. Qed.

  Lemma end_step c th a o : INV c -> nth_error (c_threads T c) (a_thread a) = Some th ->
    M (has_name (we_states (c_exec T c))) (effects_of (a_thread a) (c_log T c)) (th_pc T th) ->
    STEP c (a_thread a) (th_pc T th) (a_now a) (a_answer a) = Some o ->
    M (has_name (we_states (o_exec T o))) (effects_of (a_thread a) (c_log T c) ++ o_effects T o)%list (o_pc T o).
  Proof.
    intros I Hth HM H.
    destruct (step_ok render extract inject has_handler wait_time spec c (a_thread a) th _ (a_now a) (a_answer a) o I Hth eq_refl H) as (_ & Ev & _).
    pose proof (fun n => evolves_has_name _ _ n Ev) as K. clear Ev.
    pose proof (inv_threads _ _ _ _ _ I _ _ Hth) as TI. set (hist := effects_of (a_thread a) (c_log T c)) in *. clearbody hist.
    destruct (th_pc T th) eqn:Ep, (a_answer a); cbn in H; try discriminate H; cbn in TI, HM;
      try (destruct e as [kk ee]; discriminate H).
    - (* PStart *) destruct HM as [-> Ha].
      destruct (derive_state_config T spec name None) as [cfg|[kk e]] eqn:Ec.
      + apply config_state in Ec. unfold prepare_state_input in H. destruct (sc_input_path cfg) as [p|] eqn:Ei.
        * destruct (extract input p) as [v|m] eqn:Ex; inversion H; subst; clear H; cbn; rewrite ?app_nil_r; [split; auto|].
          split; [reflexivity|]. unfold rules_of. cbn [ei_state]. unfold StateMachineEndSpec.state in Ec. rewrite Ec. split.
          -- right. intros Nc. eapply Bad_path; eauto.
          -- right. intros rules r rp m' E1 E2 E3 E4. eapply Bad_catch; eauto.
        * inversion H; subst; clear H. cbn. split; auto.
      + unfold derive_state_config in Ec. destruct (lookup name (ws_states spec)) eqn:L; [discriminate|]. inversion Ec; subst.
        inversion H; subst; clear H. cbn. split; [reflexivity|]. right. rewrite app_nil_r.
        destruct Ha as [Ha|(cfg & Ha)]; [|unfold StateMachineEndSpec.state in Ha; congruence]. eapply Missing; eauto.
    - destruct (c_lock T c); inversion H; subst; exact HM.
    - destruct HM as [-> HS]. destruct TI as (_ & Kn & _). destruct err; inversion H; subst; cbn; [|split; auto]. split; auto.
    - inversion H; subst; exact HM.
    - (* PBody *) destruct HM as [-> HS]. destruct TI as (_ & Kn & h & p & prev & Hh & _).
      assert (J : just_started (hist ++ [])%list (es_name st)) by (rewrite app_nil_r, Hh; apply app_just). clear Hh.
      assert (Rules : forall s nm msg, s = es_name st -> rules_of {| ei_state := s; ei_parent := None; ei_name := nm; ei_msg := msg |} = sc_catch cfg).
      { intros s nm msg ->. unfold rules_of. cbn [ei_state]. unfold StateMachineEndSpec.state in HS. now rewrite HS. }
      destruct (sc_type cfg) eqn:Et.
      + destruct (has_handler (es_name st)) eqn:Eh; [|inversion H; subst; cbn; auto].
        destruct (sc_payload_template cfg) as [tpl|] eqn:Etp; [|inversion H; subst; cbn; split; auto].
        destruct (render tpl input) as [v|re] eqn:Er; inversion H; subst; clear H; cbn; [split; auto|].
        destruct re as [m|m]; cbn; (split; [reflexivity|]); (split; [right|left; auto]); rewrite Rules by reflexivity; intros Nc; eapply Bad_template; eauto.
      + inversion H; subst; cbn. right. eapply Stub; eauto. rewrite Et. cbn; auto.
      + destruct (sc_parallel_branches cfg) as [[|b bs]|]; inversion H; subst; cbn; auto.
      + destruct (sc_wait_config cfg) as [w|] eqn:Ew; [|inversion H; subst; cbn; auto].
        destruct (wait_time w input (a_now a)) as [n|[[tp ov] msg]] eqn:Ewt; inversion H; subst; clear H; cbn; [split; auto|].
        split; [reflexivity|].
        destruct ov as [n'|].
        * assert (CR : crashes (hist ++ [])%list) by (eapply Wait_elsewhere; eauto).
          destruct tp; cbn [catch_only]; [|auto]. split; [|right; intros; exact CR].
          right. intros _. eapply Bad_wait; eauto. discriminate.
        * destruct tp; cbn [catch_only]; [|auto]. split; [|left; auto]. right. rewrite Rules by reflexivity. intros Nc.
          eapply Bad_wait; eauto.
      + inversion H; subst; cbn. right. eapply Stub; eauto. rewrite Et. cbn; auto.
      + inversion H; subst; cbn. right. eapply Stub; eauto. rewrite Et. cbn; auto.
      + inversion H; subst; cbn. right. eapply Stub; eauto. rewrite Et. cbn; auto.
      + inversion H; subst; cbn; auto.
    - destruct HM as [-> HS]. destruct TI as (_ & Kn & _). destruct r as [v|[n m]]; inversion H; subst; cbn; [split; auto|split; auto].
    - destruct (join_results T c children) as [rs|]; [|discriminate]. destruct (existsb _ rs); inversion H; subst; cbn; [auto|split; auto].
    - destruct HM as [-> HS]. unfold prepare_state_output in H. destruct (sc_result_path cfg).
      + destruct (inject input s output); inversion H; subst; cbn; [split; auto|split; auto].
      + destruct (sc_output_path cfg); [destruct (extract output s)|]; inversion H; subst; cbn; split; auto.
    - destruct HM as [-> HS]. destruct (c_lock T c); [discriminate|].
      destruct (update_state _ _ _ _) as [[? ?]|] eqn:Eu; inversion H; subst; cbn; [split; auto|].
      apply update_state_none_none in Eu. contradiction.
    - destruct HM as [-> HS]. destruct err; [inversion H; subst; cbn; auto|]. destruct (sc_next cfg) as [nx|] eqn:En.
      + inversion H; subst; cbn. split; [reflexivity|]. left. right. exists (es_name st), cfg. auto.
      + destruct (match sc_end cfg with Some b => b | None => false end); inversion H; subst; cbn; auto.
    - destruct (c_lock T c); inversion H; subst; exact Logic.I.
    - destruct err; inversion H; subst; cbn; [|exact Logic.I]. split; [reflexivity|]. right. eapply Final_save; [reflexivity|]. exact TI.
    - inversion H; subst; cbn. left. apply completions_snoc.
    - (* PError *) destruct e as [kk ee]. destruct HM as [Pn HM].
      pose proof (derive_rules ee Pn) as DR.
      destruct kk; cbn [catch_only] in HM; inversion H; subst; clear H; cbn; rewrite ?app_nil_r; rewrite ?DR, ?Pn; auto using rules_ok;
        try (split; [auto|split; [|exact Logic.I]; exact HM]);
        try (split; [auto|split; [|auto using rules_ok]; cbn in TI; apply TI; reflexivity]).
    - (* PCheckAttempts *) destruct HM as (Pn & Kn & CO). destruct (c_lock T c); [discriminate|].
      match type of H with context [let '(_, _) := ?x in _] => destruct x end. inversion H; subst; cbn. rewrite app_nil_r. auto 8.
    - (* PRecord *) destruct HM as (-> & Kn & Ko). destruct (c_lock T c); [discriminate|].
      match type of H with context [update_state ?x1 ?x2 ?x3 ?x4] => destruct (update_state x1 x2 x3 x4) as [[? ?]|] eqn:Eu end;
        inversion H; subst; clear H; cbn in *.
      + destruct persist; cbn; eapply kont_mono; eauto.
      + rewrite app_nil_r. destruct Kn as [Kn|Kn]; [|exact Kn]. apply update_state_none_none in Eu. exfalso. apply Eu.
        destruct can_continue; exact Kn.
    - inversion H; subst; exact HM.
    - (* PRecordEvent *) destruct TI as [_ CO]. destruct can_continue; [|inversion H; subst; exact HM].
      destruct k as [|ee retry ct att exc inp]; cbn in CO; [discriminate|]. destruct CO as (Pn & C2 & C3).
      destruct retry as [r|]; [|discriminate]. destruct exc; [discriminate|]. inversion H; subst; cbn.
      destruct (C3 r eq_refl eq_refl) as (_ & (cfg & rs & en & D & _) & _). rewrite Pn in D. apply config_state in D. eauto.
    - (* PRecordComplete *) destruct TI as (h & s & _ & _ & CO).
      destruct k as [|ee retry ct att exc inp]; cbn in CO, HM.
      + inversion H; subst; cbn. left. apply completions_snoc.
      + destruct CO as (_ & C2 & _). destruct HM as (Pn & Kn & Cok).
        destruct retry; [destruct exc; [|discriminate]|]; inversion H; subst; cbn;
          (split; [exact Pn|]; split; [exact Cok|]; split; [left; apply completions_snoc|left; exact Kn]).
    - destruct HM as (Pn & HS). destruct (c_lock T c); inversion H; subst; cbn. auto.
    - (* PCatch *) destruct HM as (Pn & Cok & C1 & C2). fold (err_name e) in H.
      destruct catch as [rules|].
      2:{ inversion H; subst; cbn. rewrite app_nil_r. destruct C1 as [C1|C1]; [auto|right]. apply C1. intros rs r [=]. }
      destruct (List.find _ rules) as [rule|] eqn:Ef.
      2:{ inversion H; subst; cbn. rewrite app_nil_r. destruct C1 as [C1|C1]; [auto|right]. apply C1.
          intros rs r [= <-] Hr. apply (proj1 (find_no_match ct_match_errors (err_name e) rules)) with (1 := Ef) (2 := Hr). }
      destruct (c_lock T c); [discriminate|]. apply (find_first ct_match_errors) in Ef.
      unfold prepare_input_from_catch in H. fold (err_json e) in H.
      assert (Ar : asked_for (ct_next rule)).
      { apply (Cok rules rule eq_refl). destruct Ef as (pre & post & -> & _). apply in_elt. }
      destruct (ct_result_path rule) as [rp|] eqn:Erp.
      + destruct (inject input rp (err_json e)) as [v|m] eqn:Ei; inversion H; subst; clear H; cbn; [auto|].
        rewrite app_nil_r. split; [exact Pn|]. split; [|exact Logic.I]. destruct C2 as [C2|C2]; [auto|right]. eapply C2; eauto.
      + inversion H; subst; cbn. auto.
  Qed.

  Lemma end_inv initial c : we_states initial = [] -> REACH initial c ->
    forall th, nth_error (c_threads T c) 0 = Some th -> M (has_name (we_states (c_exec T c))) (effects_of 0 (c_log T c)) (th_pc T th).
  Proof.
    intros Hi R. refine (reach_ind render extract inject has_handler wait_time spec initial (fun c => forall th, nth_error (c_threads T c) 0 = Some th ->
      M (has_name (we_states (c_exec T c))) (effects_of 0 (c_log T c)) (th_pc T th)) Hi _ _ c R); clear c R.
    - intros th E. cbn in E. inversion E; subst. cbn. split; [reflexivity|]. left. now left.
    - intros c a c' I P H th' E. apply sm_step_inv in H. destruct H as (th & o & Hth & Hs & ->). cbn [c_threads c_log c_exec] in *.
      assert (Hlt : a_thread a < length (c_threads T c)) by (apply nth_error_Some; congruence).
      rewrite nth_error_app1 in E by (rewrite set_nth_length; lia).
      destruct (Nat.eq_dec 0 (a_thread a)) as [E0|Hne].
      + rewrite E0 in E. erewrite nth_set_nth_eq in E by eauto. inversion E; subst. cbn [th_pc].
        rewrite E0, effects_of_app, effects_of_same. apply M_final. eapply end_step; eauto. rewrite <- E0. apply P. now rewrite E0.
      + rewrite nth_set_nth_ne in E by assumption. rewrite effects_of_app, effects_of_other, app_nil_r by assumption.
        destruct (step_ok render extract inject has_handler wait_time spec c (a_thread a) th _ (a_now a) (a_answer a) o I Hth eq_refl Hs) as (_ & Ev & _).
        eapply M_mono; [|apply P; exact E]. intros n. apply (evolves_has_name _ _ n Ev).
  Qed.

  (** An execution that has come to its end announced a completion, or stopped without a word for one
      of these reasons: a state of a type that is not implemented was started; an input path selects
      nothing, a template fails or the time of a wait is no path, and no rule of the state catches it. *)
  Theorem C19_ended : forall initial c, we_states initial = [] -> REACH initial c -> ended_thread c 0 ->
    completions (effects_of 0 (c_log T c)) <> [] \/ goes_silent (effects_of 0 (c_log T c)).
  Proof. intros initial c Hi R (v & r & E). exact (end_inv initial c Hi R _ E). Qed.

  (** It crashes only for one of these: the definition names a state that it does not have; the last
      save, of an execution that succeeded, failed; a wait blames its failure on another state; or the
      failure of an input path is caught by a rule that cannot place it. *)
  Theorem C19_crashed : forall initial c, we_states initial = [] -> REACH initial c -> crashed_thread c 0 ->
    crashes (effects_of 0 (c_log T c)).
  Proof. intros initial c Hi R (r & E). exact (end_inv initial c Hi R _ E). Qed.

  (** So a workflow whose states are all implemented and catch what may go wrong with their paths,
      templates and waits announces a completion whenever it ends. *)
  Theorem C19_completion_reported : forall initial c, we_states initial = [] -> REACH initial c -> ended_thread c 0 ->
    (forall n cfg, state n cfg -> In (sc_type cfg) [ExecuteStep; Parallel; Wait; Unknown] /\
       (forall p v m, sc_input_path cfg = Some p -> extract v p = inr m -> ~ uncaught "InvalidInputPath" cfg) /\
       (forall tpl v e, sc_payload_template cfg = Some tpl -> render tpl v = inr e -> ~ uncaught "" cfg) /\
       (forall w v now at_ m, sc_wait_config cfg = Some w -> wait_time w v now = inr (true, at_, m) -> at_ = None /\ ~ uncaught "" cfg)) ->
    completions (effects (c_log T c)) <> [].
  Proof.
    intros initial c Hi R E A. apply (completions_of 0).
    destruct (C19_ended initial c Hi R E) as [H|H]; [exact H|]. exfalso. destruct H.
    - destruct (A _ _ H0) as (H2 & _). destruct H2 as [H2|[H2|[H2|[H2|[]]]]]; rewrite <- H2 in H1; destruct H1 as [X|[X|[X|[X|[]]]]]; discriminate X.
    - destruct (A _ _ H) as (_ & H3 & _). eapply H3; eauto.
    - destruct (A _ _ H0) as (_ & _ & H6 & _). eapply H6; eauto.
    - destruct (A _ _ H0) as (_ & _ & _ & H6). destruct (H6 _ _ _ _ _ H2 H3) as [-> H7]. auto.
  Qed.
End Ends.

(** A workflow of one state of type pass. *)
Definition ex_stub : workflow_spec (option string) := {| ws_start_at := "v"; ws_states := [("v", ex_pass)] |}.
(** Its only state has an input path and a template, and catches everything. *)
Definition ex_star : catch_config := {| ct_match_errors := ["*"]; ct_next := "a"; ct_result_path := Some "why" |}.
Definition ex_careful : workflow_spec (option string) :=
  {| ws_start_at := "a"; ws_states := [("a", ex_step (Some "x") None (Some None) None None (Some [ex_star]))] |}.

(** Each end is one that executions come to. *)
Example C19_ends_nonvacuous :
  (exists c, ex_run ex_stub ex_input to_call = Some c /\ ended_thread c 0 /\ completions (effects_of 0 (c_log _ c)) = []) /\
  (exists c, ex_run ex_spec (JObj []) [n_; n_; n_] = Some c /\ ended_thread c 0 /\ completions (effects_of 0 (c_log _ c)) = []) /\
  (exists c, ex_run {| ws_start_at := "z"; ws_states := ws_states ex_spec |} ex_input [n_; n_; n_] = Some c /\ crashed_thread c 0) /\
  (exists c, ex_run ex_careful JNull [n_; n_; n_; n_] = Some c /\ crashed_thread c 0) /\
  (exists c, ex_run ex_plain ex_input (to_call ++ [AHandler (inl JNull); n_; n_; s_; n_; ASaved (Some "disk full"); n_; n_]) = Some c
     /\ crashed_thread c 0).
Proof.
  split; [chosen; split; [do 2 eexists; reflexivity|reflexivity]|].
  split; [chosen; split; [do 2 eexists; reflexivity|reflexivity]|].
  repeat split; chosen; eexists; reflexivity.
Qed.

(** A workflow that is careful, and whose only path and template can fail. *)
Example C19_careful_nonvacuous :
  (forall n cfg, state ex_careful n cfg -> In (sc_type cfg) [ExecuteStep; Parallel; Wait; Unknown] /\
     (forall p v m, sc_input_path cfg = Some p -> ex_extract v p = inr m -> ~ uncaught "InvalidInputPath" cfg) /\
     (forall tpl v e, sc_payload_template cfg = Some tpl -> ex_render tpl v = inr e -> ~ uncaught "" cfg) /\
     (forall w v now at_ m, sc_wait_config cfg = Some w -> ex_wait w v now = inr (true, at_, m) -> at_ = None /\ ~ uncaught "" cfg)) /\
  ex_extract (JObj []) "x" = inr "nothing found" /\ ex_render None ex_input = inr (RenderFunction "no such function").
Proof.
  assert (U : forall err, ~ uncaught err (ex_step (Some "x") None (Some None) None None (Some [ex_star]))).
  { intros err H. apply (H [ex_star] ex_star eq_refl (or_introl eq_refl)). left. now left. }
  split; [|split; reflexivity]. intros n cfg H. unfold state in H. cbn in H.
  match type of H with context [if ?x then _ else _] => destruct x end; inversion H; subst.
  split; [now left|]. split; [auto|]. split; [auto|]. intros w v now at_ m Hw. discriminate Hw.
Qed.

Print Assumptions C19_ended.
Print Assumptions C19_crashed.
Print Assumptions C19_completion_reported.
