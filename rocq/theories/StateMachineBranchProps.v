(** C18: how far a branch of a parallel state gets - for every workflow whose branches have no parallel or
    wait states, and every schedule. *)
From Verif Require Import Base Json WfTypes StateMachineModel StateMachineSpec StateMachineProofs StateMachineErr StateMachineMore StateMachineProps StateMachineEndSpec.
Open Scope string_scope.

Section Branch.
  Context {T : Type}.
  Variable render : T -> json -> json + render_error.
  Variable extract : json -> string -> json + string.
  Variable inject : json -> string -> json -> json + string.
  Variable has_handler : string -> bool.
  Variable wait_time : wait_config -> json -> Z -> N + (bool * option string * string).
  Variable spec : workflow_spec T.
  Notation STEP := (step_pc T render extract inject has_handler wait_time spec).
  Notation REACH := (reachable render extract inject has_handler wait_time spec).
  Notation DRIVE := (drive render extract inject has_handler wait_time spec).
  Notation INV := (inv render extract has_handler spec).

  (** Where a branch can be once it has called a handler *)
  Definition called (p : pc T) : Prop :=
    match p with
    | PHandler _ _ _ _ _ | PSuccess _ _ _ _ _ _ | PCompleted _ _ _ _ _ _ _ | PCheckAttempts _ _ _ _ _ _ | PRecord _ _ _ _ _ _ _ _ | PPanicked _ => True
    | PError _ (k, _) _ => k = ExecuteStepHandlerFailed \/ k = InvalidResultPath \/ k = InvalidOutputPath
    | _ => False
    end.
  Definition is_call (f : effect) : Prop := exists n v, f = FCall n v.
  Lemma called_step c th t now a o :
    INV c -> nth_error (c_threads T c) t = Some th -> in_branch (th_pc T th) -> called (th_pc T th) ->
    STEP c t (th_pc T th) now a = Some o -> called (o_pc T o) /\ o_effects T o = [].
  Proof.
    intros I Hth B C H. pose proof (inv_records _ _ _ _ _ I) as RI.
    destruct (th_pc T th) eqn:Ep, a; cbn in H; try discriminate H; cbn in B, C; try contradiction;
      try (destruct e as [kk ee]; discriminate H).
    - destruct r as [v|[n m]]; inversion H; subst; cbn; auto.
    - unfold prepare_state_output in H. destruct (sc_result_path cfg).
      + destruct (inject input s output); inversion H; subst; cbn; auto.
      + destruct (sc_output_path cfg); [destruct (extract output s)|]; inversion H; subst; cbn; auto.
    - destruct (c_lock T c); [discriminate|]. destruct parent as [pn|]; [|contradiction].
      rewrite update_state_child in H by apply RI. inversion H; subst; cbn; auto.
    - destruct e as [kk ee]. destruct C as [->|[->| ->]]; inversion H; subst; cbn; auto.
    - destruct (c_lock T c); [discriminate|].
      match type of H with context [let '(_, _) := ?x in _] => destruct x end. inversion H; subst; cbn; auto.
    - destruct (c_lock T c); [discriminate|]. destruct parent as [pn|]; [|contradiction].
      rewrite update_state_child in H by (destruct can_continue; apply RI). inversion H; subst; cbn; auto.
  Qed.
  Lemma calling_step c th t now a o :
    STEP c t (th_pc T th) now a = Some o -> (forall f, In f (o_effects T o) -> ~ is_call f) \/ exists n v, o_effects T o = [FCall n v] /\ called (o_pc T o).
  Proof.
    intros H. destruct (th_pc T th), a; cbn in H; try discriminate H;
    repeat (match type of H with context [match ?x with _ => _ end] => destruct x eqn:?; try discriminate H end);
    try (unfold continue_after in H;
         repeat (match type of H with context [match ?x with _ => _ end] => destruct x eqn:?; try discriminate H end));
    inversion H; subst; clear H; cbn.
    all: try solve [right; do 2 eexists; split; [reflexivity|exact Logic.I]].
    all: left; intros ff J (nn & vv & ->); cbn in J; intuition discriminate.
  Qed.

  Lemma branch_history initial c t th : we_states initial = [] -> simple_branches spec -> REACH initial c -> 1 <= t -> nth_error (c_threads T c) t = Some th ->
    in_branch (th_pc T th) /\
    ((forall f, In f (effects_of t (c_log T c)) -> ~ is_call f) \/
     exists pre n v, effects_of t (c_log T c) = (pre ++ [FCall n v])%list /\ (forall f, In f pre -> ~ is_call f) /\ called (th_pc T th)).
  Proof.
    intros Hi SB R Ht E.
    pose (P := fun (t : nat) (h : list effect) (p : pc T) (r : option (option json)) => 1 <= t -> in_branch p /\
      ((forall f, In f h -> ~ is_call f) \/ exists pre n v, h = (pre ++ [FCall n v])%list /\ (forall f, In f pre -> ~ is_call f) /\ called p)).
    assert (G : forall t th, nth_error (c_threads T c) t = Some th -> P t (effects_of t (c_log T c)) (th_pc T th) (th_ret T th)).
    { refine (reach_ind render extract inject has_handler wait_time spec initial (fun c => forall t th, nth_error (c_threads T c) t = Some th ->
        P t (effects_of t (c_log T c)) (th_pc T th) (th_ret T th)) Hi _ _ c R); clear - Hi SB.
      - intros [|[|t]] th E; cbn in E; inversion E; subst; intros Hz; lia.
      - intros c a c' I G H. apply (lift_step render extract inject has_handler wait_time spec c a c' (fun _ => True) P I H G).
        intros th o Hth Hs. cbn zeta. split.
        + intros Hz. destruct (G _ _ Hth Hz) as (G1 & G2).
          destruct (branch_step render extract inject has_handler wait_time spec c th _ _ _ o SB I Hth G1 Hs) as (B1 & _ & _).
          assert (F : forall r, (in_branch (o_pc T o) -> in_branch (final_pc T r (o_pc T o))) /\ (called (o_pc T o) -> called (final_pc T r (o_pc T o)))) by (intros r; destruct (o_pc T o), r; auto).
          split; [now apply F|]. destruct G2 as [G2|(pre & n & v & G2 & G3 & G4)].
          * destruct (calling_step _ _ _ _ _ _ Hs) as [N|(n & v & N & D)].
            -- left. intros f J. apply in_app_or in J as [J|J]; auto.
            -- right. exists (effects_of (a_thread a) (c_log T c)), n, v. rewrite N. split; [reflexivity|]. split; [exact G2|now apply F].
          * destruct (called_step _ _ _ _ _ _ I Hth G1 G4 Hs) as [D ->]. right. exists pre, n, v. rewrite app_nil_r. split; [exact G2|]. split; [exact G3|now apply F].
        + intros i th' Hn Hz. destruct (spawn_of_step render extract inject has_handler wait_time spec _ _ _ _ _ _ Hs) as [E|(st & cfg & inp & q & bs & _ & E)]; rewrite E in Hn.
          * destruct i; discriminate.
          * apply spawned in Hn. destruct Hn as [(n & ->)| ->]; cbn; (split; [discriminate || exact Logic.I|left; contradiction]). }
    exact (G t th E Ht).
  Qed.

  (** Refuted, that a branch carries on after a step of it was executed: calling a handler is the last thing
      a branch is seen to do - nothing is saved, no event is sent and no other handler is called - and it
      does not end. *)
  Theorem C18_branch_stops_refuted : forall initial c t n v pre post, we_states initial = [] -> simple_branches spec -> REACH initial c -> 1 <= t ->
    effects_of t (c_log T c) = (pre ++ FCall n v :: post)%list -> post = [] /\ ~ ended_thread c t.
  Proof.
    intros initial c t n v pre post Hi SB R Ht E.
    assert (X : exists th, nth_error (c_threads T c) t = Some th).
    { destruct (nth_error (c_threads T c) t) as [th|] eqn:N; [eauto|exfalso].
      apply nth_error_None in N.
      assert (effects_of t (c_log T c) = []) as Z; [|rewrite Z in E; destruct pre; discriminate].
      pose proof (inv_reachable render extract inject has_handler wait_time spec initial c Hi R) as I. apply effects_of_new. intros u f J. apply (inv_tids _ _ _ _ _ I) in J. lia. }
    destruct X as [th X]. destruct (branch_history initial c t th Hi SB R Ht X) as (_ & [N|(pre' & n' & v' & N & P & D)]).
    - exfalso. apply (N (FCall n v)); [rewrite E; apply in_or_app; right; now left|now exists n, v].
    - split.
      + rewrite N in E. destruct post as [|f post]; [reflexivity|exfalso]. destruct (exists_last (l := f :: post)) as (post' & g & Q); [discriminate|].
        rewrite Q in E. rewrite app_comm_cons, app_assoc in E. apply app_inj_tail in E as [E _]. apply (P (FCall n v)); [rewrite E; apply in_or_app; right; now left|now exists n, v].
      + intros (w & r & Y). rewrite Y in X. inversion X; subst. exact D.
  Qed.
  (** So a parallel state with a branch that executed a step fails, whatever the handlers returned: when all
      its branches are over, and no rule applies, the execution is saved and announced as failed. *)
  Theorem C18_step_in_branch_refuted : forall c t ks k n v name cfg input initial (saved : option string) (now : Z),
    we_states initial = [] -> simple_branches spec -> REACH initial c -> c_lock T c = None ->
    joining c t ks name cfg input -> Forall (fun k => ended_thread c k \/ crashed_thread c k) ks ->
    In k ks -> 1 <= k -> In (FCall n v) (effects_of k (c_log T c)) -> lookup name (ws_states spec) = Some cfg ->
    not_retried "BranchesFailed" (sc_retry cfg) ->
    no_match (fun r => names_error "BranchesFailed" (ct_match_errors r)) (sc_catch cfg) ->
    exists acts c' s,
      DRIVE c t acts [FSave (payload_of (c_exec T c')) (match saved with None => true | Some _ => false end);
                      FEvent (EvFailure s); FEvent (EvComplete (c_exec T c'))] c'
      /\ handler_answers acts = [] /\ ended_thread c' t /\ we_status (c_exec T c') = Failed
      /\ es_name s = name /\ es_status s = Failed /\ es_completed s = Some now.
  Proof.
    intros c t ks k n v name cfg input initial saved now Hi SB R L J F Ik Hk Iv Lk NR NM.
    apply in_split in Iv as (pre & post & E). destruct (C18_branch_stops_refuted initial c k n v pre post Hi SB R Hk E) as [_ NE].
    assert (B : crashed_thread c k). { rewrite Forall_forall in F. destruct (F k Ik) as [X|X]; [contradiction|exact X]. }
    destruct (C18_branch_failure_fails_state render extract inject has_handler wait_time spec c t ks name cfg input initial saved now Hi R L J F) as (acts & c' & s & D & A & En & _ & St & _ & N & Fs & C); auto.
    - exists k. split; [exact Ik|]. right. exact B.
    - exists acts, c', s. repeat (split; [assumption|]). exact C.
  Qed.
End Branch.

(** A branch of two steps, the second of which is never executed: the handler of the first returns and the
    branch crashes. *)
Example C18_stops_nonvacuous :
  let b2 := ("a", [("a", ex_step None None None (Some "b") None None); ("b", ex_step None None None None None None)]) in
  simple_branches (ex_parallel b2) /\
  exists c pre, ex_run2 b2 (map (ex_of 0) to_call ++ branch 1 ++ branch 2 ++ map (ex_of 2) [AHandler (inl JNull); n_; n_])%list = Some c /\
    effects_of 2 (c_log _ c) = (pre ++ [FCall "a" ex_input])%list /\ length pre = 2 /\ crashed_thread c 2 /\
    c_lock _ c = None /\ (exists cfg, joining c 0 [1; 2] "p" cfg ex_input) /\ ended_thread c 1.
Proof.
  cbn zeta. split.
  - intros p n cfg D. inversion D as [|? ? ? ? ? ? H H0 H1 H2 H3]; subst. cbn in H.
    match type of H with context [if ?x then _ else _] => destruct x; [|discriminate H] end. inversion H; subst; clear H.
    cbn in H1. inversion H1; subst. clear H1. destruct H2 as [<-|[<-|[]]]; cbn in H3;
      repeat match type of H3 with context [if ?x then _ else _] => destruct x end; inversion H3; subst; cbn; split; discriminate.
  - eexists. eexists [_; _]. split; [vm_compute; reflexivity|]. split; [reflexivity|]. split; [reflexivity|]. split; [eexists; reflexivity|]. split; [reflexivity|]. split; [do 3 eexists; split; reflexivity|do 2 eexists; reflexivity].
Qed.

Print Assumptions C18_branch_stops_refuted.
Print Assumptions C18_step_in_branch_refuted.
