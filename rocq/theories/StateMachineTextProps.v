(** C19: the text that is recorded with the status of an execution - for every workflow and every schedule. *)
From Verif Require Import Base Json WfTypes StateMachineModel StateMachineSpec StateMachineProofs StateMachineErr StateMachineMore StateMachineProps StateMachineEndSpec StateMachineEndProps StateMachineRecordProps.
Open Scope string_scope.

(** The text of an execution that is running the state [current], and that of one that failed *)
Definition text_running (current : option string) (text : string) : Prop :=
  exists n, current = Some n /\ text = "Executing state: " ++ n.
Definition text_failed (text : string) : Prop := exists name err msg, text = failure_text name err msg.
(** The text goes with the status; one that succeeded has the text it had before. *)
Definition text_fits (first : string) (status : status) (current : option string) (text : string) : Prop :=
  match status with
  | Preparing => text = first
  | InProgress => text_running current text
  | Failed => text_failed text
  | Succeeded => text = first \/ text_running current text \/ text_failed text
  end.

Section Text.
  Context {T : Type}.
  Variable render : T -> json -> json + render_error.
  Variable extract : json -> string -> json + string.
  Variable inject : json -> string -> json -> json + string.
  Variable has_handler : string -> bool.
  Variable wait_time : wait_config -> json -> Z -> N + (bool * option string * string).
  Variable spec : workflow_spec T.
  Notation STEP := (step_pc T render extract inject has_handler wait_time spec).
  Notation REACH := (reachable render extract inject has_handler wait_time spec).

  Definition fits (first : string) (e : wf_execution) : Prop := text_fits first (we_status e) (we_current_state e) (we_status_detail e).
  Lemma text_step first c t p now a o : STEP c t p now a = Some o -> fits first (c_exec T c) -> fits first (o_exec T o).
  Proof.
    intros H F. destruct p, a; cbn in H; try discriminate H;
    repeat (match type of H with context [match ?x with _ => _ end] => destruct x eqn:?; try discriminate H end);
    try (unfold continue_after in H;
         repeat (match type of H with context [match ?x with _ => _ end] => destruct x eqn:?; try discriminate H end));
    inversion H; subst; clear H; cbn; try exact F.
    all: try (unfold fits, with_states, transition_update, fail_execution, complete_execution; cbn; solve [exact F | do 3 eexists; reflexivity | eexists; split; reflexivity
      | unfold fits, text_fits in F; destruct (we_status (c_exec T c)); intuition]).
  Qed.
  Lemma text_inv initial c : we_states initial = [] -> we_status initial = Preparing -> REACH initial c ->
    fits (we_status_detail initial) (c_exec T c) /\
    (forall s ok, In (FSave s ok) (effects (c_log T c)) -> text_fits (we_status_detail initial) (sp_status s) (sp_current_state s) (sp_status_detail s)) /\
    forall t th e, nth_error (c_threads T c) t = Some th -> aside (th_pc T th) = Some e -> fits (we_status_detail initial) e.
  Proof.
    intros Hi Hs R. refine (reach_ind render extract inject has_handler wait_time spec initial (fun c =>
      fits (we_status_detail initial) (c_exec T c) /\
      (forall s ok, In (FSave s ok) (effects (c_log T c)) -> text_fits (we_status_detail initial) (sp_status s) (sp_current_state s) (sp_status_detail s)) /\
      forall t th e, nth_error (c_threads T c) t = Some th -> aside (th_pc T th) = Some e -> fits (we_status_detail initial) e) Hi _ _ c R); clear c R.
    - split; [unfold fits; cbn; now rewrite Hs|]. split; cbn; [contradiction|]. intros [|[|t]] th e E C; cbn in E; try discriminate. inversion E; subst. discriminate.
    - intros c a c' _ (P0 & P1 & P2) H.
      apply sm_step_inv in H. destruct H as (th & o & Hth & Hst & ->).
      pose proof (text_step _ _ _ _ _ _ _ Hst P0) as N'.
      destruct (faithful_step _ _ _ _ _ _ _ _ _ _ _ _ Hst) as [Q1 Q2 Q3].
      cbn [c_exec c_threads c_log] in *. split; [exact N'|]. split.
      + intros s ok J. unfold effects in J. rewrite map_app, map_map in J. cbn in J. rewrite map_id in J. apply in_app_or in J as [J|J]; [eauto|].
        destruct (Q1 s ok J) as [->|(e & A & ->)]; [exact P0|exact (P2 _ _ _ Hth A)].
      + intros t th' e Ht A. assert (Hlt : a_thread a < length (c_threads T c)) by (apply nth_error_Some; congruence).
        destruct (Nat.lt_ge_cases t (length (c_threads T c))) as [L|L].
        * rewrite nth_error_app1 in Ht by (rewrite set_nth_length; exact L). destruct (Nat.eq_dec t (a_thread a)) as [->|Ne].
          -- erewrite nth_set_nth_eq in Ht by eauto. inversion Ht; subst th'. cbn [th_pc] in A.
             assert (A' : aside (o_pc T o) = Some e) by (revert A; destruct (o_pc T o), (match th_ret T th with Some r => Some r | None => o_ret T o end); cbn; congruence).
             destruct (Q2 e A') as [->|B]; [exact N'|exact (P2 _ _ _ Hth B)].
          -- rewrite nth_set_nth_ne in Ht by auto. eauto.
        * rewrite nth_error_app2 in Ht by (rewrite set_nth_length; exact L). apply nth_error_In in Ht. rewrite (Q3 _ Ht) in A. discriminate.
  Qed.

  (** In every save, the text beside a running status names the state that is current, and the text beside
      a failed status names a state, an error and its message. *)
  Theorem C19_status_text : forall initial c s ok, we_states initial = [] -> we_status initial = Preparing -> REACH initial c ->
    In (FSave s ok) (effects (c_log T c)) ->
    (sp_status s = InProgress -> exists n, sp_current_state s = Some n /\ sp_status_detail s = "Executing state: " ++ n) /\
    (sp_status s = Failed -> exists name err msg, sp_status_detail s = failure_text name err msg).
  Proof.
    intros initial c s ok Hi Hs R I. destruct (text_inv initial c Hi Hs R) as (_ & P & _). specialize (P s ok I).
    split; intros E; rewrite E in P; exact P.
  Qed.
  (** Refuted, that the text tells that an execution succeeded: beside that status is the text from before -
      the one it began with, that a state is being executed, or that one failed. *)
  Theorem C19_success_text_refuted : forall initial c s ok, we_states initial = [] -> we_status initial = Preparing -> REACH initial c ->
    In (FSave s ok) (effects (c_log T c)) -> sp_status s = Succeeded ->
    sp_status_detail s = we_status_detail initial \/
    (exists n, sp_current_state s = Some n /\ sp_status_detail s = "Executing state: " ++ n) \/
    exists name err msg, sp_status_detail s = failure_text name err msg.
  Proof.
    intros initial c s ok Hi Hs R I E. destruct (text_inv initial c Hi Hs R) as (_ & P & _). specialize (P s ok I). rewrite E in P. exact P.
  Qed.
End Text.

(** One that succeeded is recorded as still executing its last state. *)
Example C19_text_nonvacuous : exists c s, ex_run ex_plain ex_input (to_call ++ [AHandler (inl JNull); n_; n_; s_; n_; s_; n_]) = Some c /\
  In (FSave s true) (effects (c_log _ c)) /\ sp_status s = Succeeded /\ sp_status_detail s = "Executing state: a".
Proof.
  eexists. eexists. split; [vm_compute; reflexivity|]. split; [cbn; right; right; right; right; left; reflexivity|]. split; reflexivity.
Qed.

Print Assumptions C19_status_text.
Print Assumptions C19_success_text_refuted.
