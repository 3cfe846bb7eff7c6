(** C19: what is recorded of an execution that ended without a word - for every workflow and every
    schedule. *)
From Verif Require Import Base Json WfTypes StateMachineModel StateMachineSpec StateMachineProofs StateMachineErr StateMachineMore StateMachineProps StateMachineEndSpec StateMachineEndProps.
Open Scope string_scope.

Section Record.
  Context {T : Type}.
  Variable render : T -> json -> json + render_error.
  Variable extract : json -> string -> json + string.
  Variable inject : json -> string -> json -> json + string.
  Variable has_handler : string -> bool.
  Variable wait_time : wait_config -> json -> Z -> N + (bool * option string * string).
  Variable spec : workflow_spec T.
  Notation STEP := (step_pc T render extract inject has_handler wait_time spec).
  Notation SM_STEP := (sm_step T render extract inject has_handler wait_time spec).
  Notation REACH := (reachable render extract inject has_handler wait_time spec).

  (** On the way to announce a completion, or crashed *)
  Definition pending (p : pc T) : Prop :=
    match p with
    | PFinishSave _ _ _ | PFinishEvent _ _ | PRecordComplete _ _ _ | PPanicked _ => True
    | PRecord _ _ _ _ _ _ can_continue _ => can_continue = false
    | PRecordSave _ _ _ can_continue _ | PRecordEvent _ _ _ can_continue _ => can_continue = false
    | PError _ (k, _) _ => k = PersistFailed
    | _ => False
    end.
  (** An execution that was put aside to be saved *)
  Definition captured (p : pc T) : Prop :=
    match p with
    | PRecordSave _ e _ _ _ | PRecordEvent _ e _ _ _ | PRecordComplete _ e _ => over (we_status e)
    | _ => False
    end.
  Lemma over_no : ~ over InProgress.
  Proof. intros [H|H]; discriminate. Qed.
  Lemma pending_final ret p : pending p -> pending (final_pc T ret p).
  Proof. destruct p, ret; auto. Qed.
  Lemma captured_final ret p : captured (final_pc T ret p) -> captured p.
  Proof. destruct p, ret; auto. Qed.

  Lemma spawn_plain n input bs th : In th (spawn_branches T n input bs) -> ~ captured (th_pc T th).
  Proof.
    intros H C. induction bs as [|b bs IH]; cbn in H; [contradiction|]. destruct H as [H|H]; [|auto].
    subst th. match type of C with context [match ?x with _ => _ end] => destruct x end; exact C.
  Qed.
  Record quiet (c : config T) (p : pc T) (o : outcome_of_step T) : Prop := {
    q_pending : pending p -> pending (o_pc T o) \/ completions (o_effects T o) <> [];
    q_exec : over (we_status (o_exec T o)) -> over (we_status (c_exec T c)) \/ pending (o_pc T o);
    q_save : forall s ok, In (FSave s ok) (o_effects T o) -> over (sp_status s) -> over (we_status (c_exec T c)) \/ captured p;
    q_captured : captured (o_pc T o) -> over (we_status (c_exec T c)) \/ captured p \/ pending (o_pc T o);
    q_spawn : forall th, In th (o_spawn T o) -> ~ captured (th_pc T th) }.
  Ltac plain := constructor; cbn; intros; try contradiction; try discriminate; auto;
    repeat match goal with
    | H : over InProgress |- _ => destruct (over_no H)
    | H : _ \/ _ |- _ => destruct H; try contradiction; try discriminate
    | H : FSave _ _ = FSave _ _ |- _ => inversion H; subst; clear H
    end; auto; try (right; discriminate).
  Lemma quiet_step c t p now a o : STEP c t p now a = Some o -> quiet c p o.
  Proof.
    intros H. destruct p, a; cbn in H; try discriminate H; try (destruct e as [kk ee]; discriminate H).
    - destruct (derive_state_config T spec name parent) as [cfg|[kk e]] eqn:Ed.
      + unfold prepare_state_input in H. destruct (sc_input_path cfg); [destruct (extract input s)|]; inversion H; subst; plain.
      + inversion H; subst; plain.
    - destruct (c_lock T c); inversion H; subst; plain.
    - destruct err; inversion H; subst; plain.
    - inversion H; subst; plain.
    - destruct (sc_type cfg).
      + destruct (has_handler (es_name st)); [|inversion H; subst; plain].
        destruct (sc_payload_template cfg); [destruct (render t0 input) as [|[]]|]; inversion H; subst; plain.
      + inversion H; subst; plain.
      + destruct (sc_parallel_branches cfg) as [[|b bs]|]; inversion H; subst; try solve [plain].
        constructor; cbn [o_pc o_exec o_effects o_spawn pending captured]; intros; try contradiction; auto.
        apply (spawn_plain (es_name st) input (b :: bs)). assumption.
      + destruct (sc_wait_config cfg); [destruct (wait_time w input now) as [|[[[] ?] ?]]|]; inversion H; subst; plain.
      + inversion H; subst; plain.
      + inversion H; subst; plain.
      + inversion H; subst; plain.
      + inversion H; subst; plain.
    - destruct r as [|[]]; inversion H; subst; plain.
    - destruct (join_results T c children) as [rs|]; [|discriminate]. destruct (existsb _ rs); inversion H; subst; plain.
    - unfold prepare_state_output in H. destruct (sc_result_path cfg); [destruct (inject input s output)|destruct (sc_output_path cfg); [destruct (extract output s)|]]; inversion H; subst; plain.
    - destruct (c_lock T c); [discriminate|]. destruct (update_state _ _ _ _) as [[? ?]|]; inversion H; subst; plain.
    - destruct err; [inversion H; subst; plain|]. destruct (sc_next cfg); [inversion H; subst; plain|].
      destruct (match sc_end cfg with Some b => b | None => false end); inversion H; subst; plain.
    - destruct (c_lock T c); inversion H; subst; plain.
    - destruct err; inversion H; subst; plain.
    - inversion H; subst; plain.
    - destruct e as [kk ee]. destruct kk; inversion H; subst; plain.
    - destruct (c_lock T c); [discriminate|]. match type of H with context [let '(_, _) := ?x in _] => destruct x end. inversion H; subst; plain.
    - destruct (c_lock T c); [discriminate|].
      match type of H with context [update_state ?x1 ?x2 ?x3 ?x4] => destruct (update_state x1 x2 x3 x4) as [[? ?]|] end; inversion H; subst;
        destruct persist, can_continue; plain.
    - inversion H; subst; plain.
    - destruct can_continue; [|inversion H; subst; plain].
      destruct k as [|? [?|] ? ? [] ?]; inversion H; subst; plain.
    - destruct k as [|? [?|] ? ? [] ?]; inversion H; subst; plain.
    - destruct (c_lock T c); inversion H; subst; plain.
    - destruct catch as [rules|]; [|inversion H; subst; plain]. destruct (List.find _ rules) as [rule|]; [|inversion H; subst; plain].
      destruct (c_lock T c); [discriminate|]. unfold prepare_input_from_catch in H. destruct (ct_result_path rule); [destruct (inject input s _)|]; inversion H; subst; plain.
  Qed.

  Definition heading (c : config T) : Prop :=
    completions (effects (c_log T c)) <> [] \/ exists t th, nth_error (c_threads T c) t = Some th /\ pending (th_pc T th).
  Lemma completions_in fs : completions fs <> [] <-> exists e, In (FEvent (EvComplete e)) fs.
  Proof.
    unfold completions. split.
    - intros H. destruct (flat_map _ fs) as [|e l] eqn:E; [congruence|]. assert (I : In e (e :: l)) by now left. rewrite <- E in I.
      apply in_flat_map in I as ([p ok|[| |x]| | |] & I & J); cbn in J; try contradiction. destruct J as [->|[]]. eauto.
    - intros (e & I) E. assert (In e []) as []. rewrite <- E. apply in_flat_map. exists (FEvent (EvComplete e)). cbn. auto.
  Qed.
  Record told (c : config T) : Prop := {
    t_exec : over (we_status (c_exec T c)) -> heading c;
    t_save : forall s ok, In (FSave s ok) (effects (c_log T c)) -> over (sp_status s) -> heading c;
    t_captured : forall t th, nth_error (c_threads T c) t = Some th -> captured (th_pc T th) -> heading c }.
  Lemma told_inv initial c : we_states initial = [] -> ~ over (we_status initial) -> REACH initial c -> told c.
  Proof.
    intros Hi Ho R. refine (reach_ind render extract inject has_handler wait_time spec initial told Hi _ _ c R); clear c R.
    - constructor; cbn; [contradiction|contradiction|]. intros [|[|t]] th E C; cbn in E; try discriminate. inversion E; subst. contradiction.
    - intros c a c' _ P H. apply sm_step_inv in H. destruct H as (th & o & Hth & Hs & ->). pose proof (quiet_step _ _ _ _ _ _ Hs) as [Q1 Q2 Q3 Q4 Q5].
      set (ret := match th_ret T th with Some r => Some r | None => o_ret T o end). cbn zeta. set (c' := {| c_exec := _ |}).
      assert (Hlt : a_thread a < length (c_threads T c)) by (apply nth_error_Some; congruence).
      assert (Here : nth_error (c_threads T c') (a_thread a) = Some {| th_pc := final_pc T ret (o_pc T o); th_ret := ret |}).
      { unfold c'. cbn [c_threads]. rewrite nth_error_app1 by (rewrite set_nth_length; lia). eapply nth_set_nth_eq; eauto. }
      assert (Log : effects (c_log T c') = (effects (c_log T c) ++ o_effects T o)%list).
      { unfold c', effects. cbn [c_log]. rewrite map_app, map_map. cbn. now rewrite map_id. }
      assert (New : pending (o_pc T o) -> heading c').
      { intros N. right. eexists. eexists. split; [exact Here|]. now apply pending_final. }
      assert (Old : heading c -> heading c').
      { intros [N|(t & th' & Ht & N)].
        - left. rewrite Log. apply completions_in. apply completions_in in N as (e & N). exists e. apply in_or_app. auto.
        - destruct (Nat.eq_dec t (a_thread a)) as [->|Ne].
          + rewrite Hth in Ht. inversion Ht; subst th'. destruct (Q1 N) as [N'|N']; [auto|]. left. rewrite Log. apply completions_in. apply completions_in in N' as (e & N'). exists e. apply in_or_app. auto.
          + right. exists t, th'. split; [|exact N]. unfold c'. cbn [c_threads]. rewrite nth_error_app1; [rewrite nth_set_nth_ne; auto|]. rewrite set_nth_length. apply nth_error_Some. congruence. }
      destruct P as [P1 P2 P3]. assert (Cap : captured (th_pc T th) -> heading c) by (apply P3 with (1 := Hth)).
      constructor.
      + intros O. destruct (Q2 O) as [O'|O']; auto.
      + intros s ok I O. rewrite Log in I. apply in_app_or in I as [I|I]; [eauto|]. destruct (Q3 s ok I O) as [O'|O']; auto.
      + intros t th' Ht C. unfold c' in Ht. cbn [c_threads] in Ht. destruct (Nat.lt_ge_cases t (length (c_threads T c))) as [L|L].
        * rewrite nth_error_app1 in Ht by (rewrite set_nth_length; exact L). destruct (Nat.eq_dec t (a_thread a)) as [->|Ne].
          -- erewrite nth_set_nth_eq in Ht by eauto. inversion Ht; subst th'. apply captured_final in C. destruct (Q4 C) as [O|[O|O]]; auto.
          -- rewrite nth_set_nth_ne in Ht by auto. eauto.
        * rewrite nth_error_app2 in Ht by (rewrite set_nth_length; exact L). apply nth_error_In in Ht. destruct (Q5 _ Ht C).
  Qed.

  (** An execution that was recorded as over announced a completion by the time it ends or crashes, unless
      it crashed. *)
  Theorem C19_recorded_announced : forall initial c s ok, we_states initial = [] -> ~ over (we_status initial) -> REACH initial c ->
    (forall t, t < length (c_threads T c) -> ended_thread c t \/ crashed_thread c t) ->
    In (FSave s ok) (effects (c_log T c)) -> over (sp_status s) -> completions (effects (c_log T c)) <> [] \/ exists t, crashed_thread c t.
  Proof.
    intros initial c s ok Hi Ho R E I O. destruct (t_save _ (told_inv initial c Hi Ho R) s ok I O) as [H|(t & th & Ht & H)]; [auto|right].
    exists t. destruct (E t) as [(v & r & X)|X]; [apply nth_error_Some; congruence| |exact X]. rewrite X in Ht. inversion Ht; subst. contradiction.
  Qed.
  (** Refuted, that an execution that has ended is recorded as over: one that ended without announcing a
      completion was never saved as succeeded or failed. *)
  Theorem C19_silent_record_refuted : forall initial c, we_states initial = [] -> ~ over (we_status initial) -> REACH initial c ->
    (forall t, t < length (c_threads T c) -> ended_thread c t) -> completions (effects (c_log T c)) = [] ->
    (forall s ok, In (FSave s ok) (effects (c_log T c)) -> sp_status s = Preparing \/ sp_status s = InProgress) /\ forall a, SM_STEP c a = None.
  Proof.
    intros initial c Hi Ho R E N. split.
    - intros s ok I. destruct (sp_status s) eqn:S; auto; exfalso.
      all: destruct (C19_recorded_announced initial c s ok Hi Ho R (fun t L => or_introl (E t L)) I) as [H|(t & r & X)]; [rewrite S; unfold over; auto|congruence|].
      all: destruct (E t) as (v & r' & Y); [apply nth_error_Some; congruence|congruence].
    - intros a. unfold sm_step. destruct (nth_error (c_threads T c) (a_thread a)) as [th|] eqn:Ht; [|reflexivity].
      destruct (E (a_thread a)) as (v & r & Y); [apply nth_error_Some; congruence|]. rewrite Y in Ht. inversion Ht; subst. cbn. now destruct (a_answer a).
  Qed.
  (** What is saved: the execution as it is, or one that was put aside *)
  Definition aside (p : pc T) : option wf_execution :=
    match p with PRecordSave _ e _ _ _ | PRecordEvent _ e _ _ _ | PRecordComplete _ e _ => Some e | _ => None end.
  Record faithful (c : config T) (p : pc T) (o : outcome_of_step T) : Prop := {
    f_save : forall s ok, In (FSave s ok) (o_effects T o) -> s = payload_of (c_exec T c) \/ exists e, aside p = Some e /\ s = payload_of e;
    f_aside : forall e, aside (o_pc T o) = Some e -> e = o_exec T o \/ aside p = Some e;
    f_spawn : forall th, In th (o_spawn T o) -> aside (th_pc T th) = None }.
  Ltac plainly := constructor; cbn; intros; try contradiction; try discriminate; auto;
    repeat match goal with
    | H : _ \/ _ |- _ => destruct H; try contradiction; try discriminate
    | H : FSave _ _ = FSave _ _ |- _ => inversion H; subst; clear H
    | H : Some _ = Some _ |- _ => inversion H; subst; clear H
    end; eauto.
  Lemma spawn_aside n input bs th : In th (spawn_branches T n input bs) -> aside (th_pc T th) = None.
  Proof.
    intros H. induction bs as [|b bs IH]; cbn in H; [contradiction|]. destruct H as [H|H]; [|auto].
    subst th. match goal with |- context [match ?x with _ => _ end] => destruct x end; reflexivity.
  Qed.
  Lemma faithful_step c t p now a o : STEP c t p now a = Some o -> faithful c p o.
  Proof.
    intros H. destruct p, a; cbn in H; try discriminate H; try (destruct e as [kk ee]; discriminate H).
    - destruct (derive_state_config T spec name parent) as [cfg|[kk e]] eqn:Ed.
      + unfold prepare_state_input in H. destruct (sc_input_path cfg); [destruct (extract input s)|]; inversion H; subst; plainly.
      + inversion H; subst; plainly.
    - destruct (c_lock T c); inversion H; subst; plainly.
    - destruct err; inversion H; subst; plainly.
    - inversion H; subst; plainly.
    - destruct (sc_type cfg).
      + destruct (has_handler (es_name st)); [|inversion H; subst; plainly].
        destruct (sc_payload_template cfg); [destruct (render t0 input) as [|[]]|]; inversion H; subst; plainly.
      + inversion H; subst; plainly.
      + destruct (sc_parallel_branches cfg) as [[|b bs]|]; inversion H; subst; try solve [plainly].
        constructor; cbn [o_pc o_exec o_effects o_spawn aside]; intros; try contradiction; try discriminate.
        apply (spawn_aside (es_name st) input (b :: bs)). assumption.
      + destruct (sc_wait_config cfg); [destruct (wait_time w input now) as [|[[[] ?] ?]]|]; inversion H; subst; plainly.
      + inversion H; subst; plainly.
      + inversion H; subst; plainly.
      + inversion H; subst; plainly.
      + inversion H; subst; plainly.
    - destruct r as [|[]]; inversion H; subst; plainly.
    - destruct (join_results T c children) as [rs|]; [|discriminate]. destruct (existsb _ rs); inversion H; subst; plainly.
    - unfold prepare_state_output in H. destruct (sc_result_path cfg); [destruct (inject input s output)|destruct (sc_output_path cfg); [destruct (extract output s)|]]; inversion H; subst; plainly.
    - destruct (c_lock T c); [discriminate|]. destruct (update_state _ _ _ _) as [[? ?]|]; inversion H; subst; plainly.
    - destruct err; [inversion H; subst; plainly|]. destruct (sc_next cfg); [inversion H; subst; plainly|].
      destruct (match sc_end cfg with Some b => b | None => false end); inversion H; subst; plainly.
    - destruct (c_lock T c); inversion H; subst; plainly.
    - destruct err; inversion H; subst; plainly.
    - inversion H; subst; plainly.
    - destruct e as [kk ee]. destruct kk; inversion H; subst; plainly.
    - destruct (c_lock T c); [discriminate|]. match type of H with context [let '(_, _) := ?x in _] => destruct x end. inversion H; subst; plainly.
    - destruct (c_lock T c); [discriminate|].
      match type of H with context [update_state ?x1 ?x2 ?x3 ?x4] => destruct (update_state x1 x2 x3 x4) as [[? ?]|] end; inversion H; subst;
        destruct persist, can_continue; plainly.
    - inversion H; subst; plainly.
    - destruct can_continue; [|inversion H; subst; plainly].
      destruct k as [|? [?|] ? ? [] ?]; inversion H; subst; plainly.
    - destruct k as [|? [?|] ? ? [] ?]; inversion H; subst; plainly.
    - destruct (c_lock T c); inversion H; subst; plainly.
    - destruct catch as [rules|]; [|inversion H; subst; plainly]. destruct (List.find _ rules) as [rule|]; [|inversion H; subst; plainly].
      destruct (c_lock T c); [discriminate|]. unfold prepare_input_from_catch in H. destruct (ct_result_path rule); [destruct (inject input s _)|]; inversion H; subst; plainly.
  Qed.
  Definition childless (e : wf_execution) : Prop := Forall (fun s => es_parallel s = []) (we_states e).
  Lemma childless_inv initial c : we_states initial = [] -> REACH initial c ->
    (forall s ok, In (FSave s ok) (effects (c_log T c)) -> Forall (fun s => es_parallel s = []) (sp_states s)) /\
    forall t th e, nth_error (c_threads T c) t = Some th -> aside (th_pc T th) = Some e -> childless e.
  Proof.
    intros Hi R. refine (reach_ind render extract inject has_handler wait_time spec initial (fun c =>
      (forall s ok, In (FSave s ok) (effects (c_log T c)) -> Forall (fun s => es_parallel s = []) (sp_states s)) /\
      forall t th e, nth_error (c_threads T c) t = Some th -> aside (th_pc T th) = Some e -> childless e) Hi _ _ c R); clear c R.
    - split; cbn; [contradiction|]. intros [|[|t]] th e E C; cbn in E; try discriminate. inversion E; subst. discriminate.
    - intros c a c' I [P1 P2] H. pose proof (inv_step render extract inject has_handler wait_time spec c a c' I H) as I'.
      pose proof (proj1 (inv_records _ _ _ _ _ I)) as N. pose proof (proj1 (inv_records _ _ _ _ _ I')) as N'.
      apply sm_step_inv in H. destruct H as (th & o & Hth & Hs & ->). destruct (faithful_step _ _ _ _ _ _ Hs) as [Q1 Q2 Q3].
      cbn [c_exec c_threads c_log] in *. split.
      + intros s ok J. unfold effects in J. rewrite map_app, map_map in J. cbn in J. rewrite map_id in J. apply in_app_or in J as [J|J]; [eauto|].
        destruct (Q1 s ok J) as [->|(e & A & ->)]; [exact N|exact (P2 _ _ _ Hth A)].
      + intros t th' e Ht A. assert (Hlt : a_thread a < length (c_threads T c)) by (apply nth_error_Some; congruence).
        destruct (Nat.lt_ge_cases t (length (c_threads T c))) as [L|L].
        * rewrite nth_error_app1 in Ht by (rewrite set_nth_length; exact L). destruct (Nat.eq_dec t (a_thread a)) as [->|Ne].
          -- erewrite nth_set_nth_eq in Ht by eauto. inversion Ht; subst th'. cbn [th_pc] in A.
             assert (A' : aside (o_pc T o) = Some e) by (revert A; destruct (o_pc T o), (match th_ret T th with Some r => Some r | None => o_ret T o end); cbn; congruence).
             destruct (Q2 e A') as [->|B]; [exact N'|exact (P2 _ _ _ Hth B)].
          -- rewrite nth_set_nth_ne in Ht by auto. eauto.
        * rewrite nth_error_app2 in Ht by (rewrite set_nth_length; exact L). apply nth_error_In in Ht. rewrite (Q3 _ Ht) in A. discriminate.
  Qed.
  (** C18, refuted, that the record of a parallel state shows its branches: in every save of every
      execution, no state has any records of branches. *)
  Theorem C18_branch_records_refuted : forall initial c p ok s, we_states initial = [] -> REACH initial c ->
    In (FSave p ok) (effects (c_log T c)) -> In s (sp_states p) -> es_parallel s = [].
  Proof.
    intros initial c p ok s Hi R I J. pose proof (proj1 (childless_inv initial c Hi R) p ok I) as F. rewrite Forall_forall in F. now apply F.
  Qed.
End Record.

(** A workflow of one state of type pass ends like that, after a save; and one that fails to save its end
    crashes after it was saved as succeeded. *)
Example C19_record_nonvacuous :
  (exists c s, ex_run ex_stub ex_input to_call = Some c /\ (forall t, t < length (c_threads _ c) -> ended_thread c t) /\ completions (effects (c_log _ c)) = [] /\
     In (FSave s true) (effects (c_log _ c)) /\ sp_status s = InProgress) /\
  (exists c s, ex_run ex_plain ex_input (to_call ++ [AHandler (inl JNull); n_; n_; s_; n_; s_; n_]) = Some c /\ (forall t, t < length (c_threads _ c) -> ended_thread c t) /\
     In (FSave s true) (effects (c_log _ c)) /\ over (sp_status s)).
Proof.
  split.
  - eexists. eexists. split; [vm_compute; reflexivity|]. split; [intros [|t] L; [do 2 eexists; reflexivity|cbn in L; lia]|]. split; [reflexivity|]. split; [cbn; left; reflexivity|reflexivity].
  - eexists. eexists. split; [vm_compute; reflexivity|]. split; [intros [|t] L; [do 2 eexists; reflexivity|cbn in L; lia]|]. split; [cbn; right; right; right; right; left; reflexivity|now left].
Qed.

(** A parallel state and those of its branches are saved, side by side. *)
Example C18_records_nonvacuous : exists c p s, ex_run2 ("v", [("v", ex_pass)]) (map (ex_of 0) to_call ++ branch 1 ++ branch 2)%list = Some c /\
  In (FSave p true) (effects (c_log _ c)) /\ In s (sp_states p) /\ es_type s = Parallel /\ length (sp_states p) = 3.
Proof.
  do 3 eexists. split; [vm_compute; reflexivity|]. split; [cbn; do 4 right; left; reflexivity|]. split; [cbn; left; reflexivity|]. split; reflexivity.
Qed.

Print Assumptions C19_recorded_announced.
Print Assumptions C19_silent_record_refuted.
Print Assumptions C18_branch_records_refuted.
