(** C140: what the number of an attempt says. *)
From Verif Require Import Base Json WfTypes StateMachineModel StateMachineSpec StateMachineProofs StateMachineErr StateMachineMore StateMachineProps StateMachineAttemptSpec.
Open Scope string_scope.

Section Attempts.
  Context {T : Type}.
  Variable render : T -> json -> json + render_error.
  Variable extract : json -> string -> json + string.
  Variable inject : json -> string -> json -> json + string.
  Variable has_handler : string -> bool.
  Variable wait_time : wait_config -> json -> Z -> N + (bool * option string * string).
  Variable spec : workflow_spec T.
  Notation STEP := (step_pc T render extract inject has_handler wait_time spec).
  Notation SM_STEP := (sm_step T render extract inject has_handler wait_time spec).
  Notation INV := (inv render extract has_handler spec).
  Notation REACH := (reachable render extract inject has_handler wait_time spec).

  Definition low (st : exec_state) : Prop := no_self_loop spec -> es_attempt st = 1%Z \/ es_attempt st = 2%Z.
  Definition of_spec (st : exec_state) (cfg : state_config T) : Prop := exists q, derive_state_config T spec (es_name st) q = inl cfg.
  Definition p_att (p : pc T) : Prop :=
    match p with
    | PStart _ name _ prev _ => no_self_loop spec -> forall s, prev = Some s -> es_name s = name -> es_attempt s = 1%Z
    | PTransition _ st cfg _ prev _ | PTransitionSave _ st cfg _ prev _ | PTransitionEvent _ st cfg _ prev _ => numbered prev st /\ low st /\ of_spec st cfg
    | PBody _ st cfg _ _ | PHandler _ st cfg _ _ | PJoin _ _ st cfg _ | PSuccess _ _ st cfg _ _ | PCompleted _ _ _ st cfg _ _ | PCompletedSave _ _ st cfg _ _ => of_spec st cfg
    | _ => True
    end.
  Definition f_att (f : effect) : Prop := match f with FEvent (EvTransition prev st) => numbered prev st /\ low st | _ => True end.

  Lemma first_attempt sts n parent s : records_ok sts -> extract_state n parent sts = Some s -> es_attempt s = 1%Z.
  Proof. intros [H1 H2] H. destruct parent as [q|]; [rewrite extract_state_child in H by exact H1; discriminate|eauto]. Qed.
  Lemma numbered_of prev name ty i now a : a = match prev with Some s => if String.eqb (es_name s) name then (es_attempt s + 1)%Z else 1%Z | None => 1%Z end ->
    numbered prev (mk_exec_state name ty None i now None InProgress a None [] None None).
  Proof.
    intros ->. split; cbn.
    - intros s -> <-. now rewrite String.eqb_refl.
    - intros [->|(s & -> & H)]; [reflexivity|]. apply String.eqb_neq in H. now rewrite H.
  Qed.
  Lemma low_same a b : same_record a b -> low a -> low b.
  Proof. intros (_ & E & _) H N. rewrite <- E. auto. Qed.
  Lemma low_update n parent f sts r x : records_ok sts -> (forall s, same_record s (f s)) -> update_state n parent f sts = Some (r, x) -> Forall low sts -> Forall low r.
  Proof.
    intros [R _] Hf H L. destruct parent as [q|]; [rewrite update_state_child in H by exact R; discriminate|]. apply update_state_none_some in H.
    destruct H as (pre & s & post & -> & _ & -> & _). apply Forall_app in L. destruct L as [L1 L2]. inversion L2; subst. apply Forall_app. split; [exact L1|]. constructor; [|assumption]. eapply low_same; eauto.
  Qed.
  Lemma att_step c t p now a o : INV c -> Forall low (we_states (c_exec T c)) -> p_att p -> STEP c t p now a = Some o ->
    Forall low (we_states (o_exec T o)) /\ p_att (o_pc T o) /\ Forall f_att (o_effects T o) /\ Forall (fun th => p_att (th_pc T th)) (o_spawn T o).
  Proof.
    intros I L P H. pose proof (inv_records _ _ _ _ _ I) as R.
    assert (SP : forall name input bs, Forall (fun th => p_att (th_pc T th)) (spawn_branches T name input bs)).
    { intros name input bs. unfold spawn_branches. apply Forall_map, Forall_forall. intros b _. destruct (lookup (fst b) (snd b)); cbn; [intros _ ? [=]|exact Logic.I]. }
    destruct p, a; try (cbn in H; discriminate H).
    { (* the start of a state *) cbn in H.
      destruct (derive_state_config T spec name parent) as [cfg|e] eqn:Ec; [|inversion H; subst; cbn; auto].
      destruct (prepare_state_input T extract name parent cfg input) as [final|e]; [|inversion H; subst; cbn; auto].
      inversion H; subst; clear H. cbn [o_exec o_pc o_effects o_spawn stay]. split; [assumption|]. split; [|auto]. split; [now apply numbered_of|]. split; [|exists parent; exact Ec].
      intros N. cbn [es_attempt]. destruct prev as [s|]; [|now left]. destruct (String.eqb_spec (es_name s) name) as [E|_]; [|now left]. right. cbn in P. now rewrite (P N s eq_refl E). }
    all: cbn -[spawn_branches] in H; try discriminate H;
    repeat (match type of H with context [match ?x with _ => _ end] => destruct x eqn:?; try discriminate H end);
    try (unfold continue_after in H;
         repeat (match type of H with context [match ?x with _ => _ end] => destruct x eqn:?; try discriminate H end));
    inversion H; subst; clear H; cbn [o_exec o_pc o_effects o_spawn stay with_effects with_exec with_lock with_ret c_exec p_att f_att] in *;
    (split; [|split; [|split]]); try assumption; try exact Logic.I; try apply P; try apply SP; repeat (constructor; [exact Logic.I||(split; apply P)|]); try constructor.
    all: try (apply Forall_app; split; [assumption|constructor; [apply P|constructor]]).
    all: try (eapply low_update; [exact R| |eassumption|assumption]; intros; apply complete_same || apply fail_same).
    all: try (intros _ x E _; eapply first_attempt; eassumption).
    - match goal with |- context [lookup ?a ?b] => destruct (lookup a b) end; cbn; [intros _ ? [=]|exact Logic.I].
    - apply SP.
    - intros N s0 [= <-] E. destruct P as (q & Hq). apply config_declared in Hq. elim (N _ _ _ Hq). congruence.
  Qed.
  Lemma attempts initial c : we_states initial = [] -> REACH initial c ->
    Forall low (we_states (c_exec T c)) /\ forall t f, In (t, f) (c_log T c) -> f_att f.
  Proof.
    intros Hi R.
    enough (Forall low (we_states (c_exec T c)) /\ (forall t th, nth_error (c_threads T c) t = Some th -> p_att (th_pc T th)) /\ (forall t f, In (t, f) (c_log T c) -> f_att f)) by tauto.
    revert c R. eapply reach_ind; [exact Hi| |].
    - cbn [sm_init c_exec c_threads c_log]. rewrite Hi. split; [constructor|]. split; [|intros t f []].
      intros [|[|t]] th E; cbn in E; inversion E; subst; cbn. intros _ s [=].
    - intros c a c' I (P1 & P2 & P3) H. pose proof H as H'. apply sm_step_inv in H'. destruct H' as (th0 & o & H0 & Hs & Ec'). cbn zeta in Ec'.
      destruct (att_step c _ _ _ _ o I P1 (P2 _ _ H0) Hs) as (Q1 & Q2 & Q3 & Q4).
      split; [subst; exact Q1|]. split.
      + apply (lift_step render extract inject has_handler wait_time spec c a c' (fun _ => True) (fun _ _ p _ => p_att p)); auto.
        intros th o' E Ho'. rewrite H0 in E. inversion E; subst th. rewrite Hs in Ho'. inversion Ho'; subst o'. cbn zeta. split.
        * destruct (o_pc T o), (match th_ret T th0 with Some r => Some r | None => o_ret T o end); exact Q2.
        * intros i th' Hn. rewrite Forall_forall in Q4. apply Q4. eapply nth_error_In; eauto.
      + subst c'. cbn. intros t f Hin. apply in_app_or in Hin. destruct Hin as [Hin|Hin]; [eauto|].
        apply in_map_iff in Hin. destruct Hin as (x & Hx & Hin). inversion Hx; subst. rewrite Forall_forall in Q3. auto.
  Qed.

  (** An announced attempt that follows an attempt at the same state has the next number, any other the
      number one; and so has the first record of every state. *)
  Theorem C140_next_number_partial : forall initial c, we_states initial = [] -> REACH initial c ->
    (forall t prev st, In (t, FEvent (EvTransition prev st)) (c_log T c) -> numbered prev st) /\
    (forall pre st post, we_states (c_exec T c) = (pre ++ st :: post)%list -> ~ In (es_name st) (map es_name pre) -> es_attempt st = 1%Z).
  Proof.
    intros initial c Hi R. split.
    - intros t prev st H. apply (proj2 (attempts initial c Hi R)) in H. apply H.
    - intros pre st post E N. assert (I : INV c) by (eapply inv_reachable; eauto). destruct (inv_records _ _ _ _ _ I) as [_ RA]. apply (RA (es_name st)). rewrite E, extract_app.
      destruct (extract_state (es_name st) None pre) as [s|] eqn:Ex; [|cbn; now rewrite String.eqb_refl].
      elim N. apply (proj2 (extract_state_has pre (es_name st))). eauto.
  Qed.
  (** But the number does not count the attempts: where no state follows itself it never exceeds two,
      and every retry, however many there were before, is attempt two. *)
  Theorem C140_counted_refuted : forall initial c, we_states initial = [] -> REACH initial c ->
    (no_self_loop spec -> (forall t prev st, In (t, FEvent (EvTransition prev st)) (c_log T c) -> (es_attempt st <= 2)%Z) /\
      (forall st, In st (we_states (c_exec T c)) -> (es_attempt st <= 2)%Z)) /\
    (forall t name input cfg rs rule err msg, awaiting c t name input -> c_lock T c = None -> lookup name (ws_states spec) = Some cfg ->
      sc_retry cfg = Some rs -> first_match (fun r => names_error (shown_error err) (rt_match_errors r)) rs rule -> limit_allows rule ->
      exists acts c' prev st, sm_run T render extract inject has_handler wait_time spec c acts = Some c' /\ handler_answers acts = [inr (err, msg)] /\ awaiting c' t name input /\
        In (t, FEvent (EvTransition prev st)) (skipn (length (c_log T c)) (c_log T c')) /\ es_name st = name /\ es_attempt st = 2%Z).
  Proof.
    intros initial c Hi R. split.
    - intros N. destruct (attempts initial c Hi R) as [A B]. split.
      + intros t prev st H. destruct (proj2 (B _ _ H) N); lia.
      + intros st H. rewrite Forall_forall in A. destruct (A _ H N); lia.
    - intros t name input cfg rs rule err msg Ha Hl Hc Hr Hf Hm.
      destruct (handler_failure_retried render extract inject has_handler wait_time spec c t name input err msg None 0%Z initial cfg rs rule Hi R Ha Hl Hc Hr Hf Hm)
        as (acts & c' & p & s & q & prev & st & v & (D1 & D2 & D3) & HA & A' & _ & _ & _ & _ & Hn & _ & _ & H2).
      exists acts, c', prev, st. split; [exact D1|]. split; [exact HA|]. split; [exact A'|]. split; [|auto].
      rewrite D3, skipn_app, Nat.sub_diag, skipn_all. cbn. auto 10.
  Qed.
End Attempts.

(** * A failing step that is retried twice *)
Example C140_nonvacuous : no_self_loop ex_spec /\
  let again := [AHandler (inr ("Timeout", "no")); n_; n_; n_; s_; n_; n_] in
  exists c, ex_run ex_spec ex_input (to_call ++ again ++ to_call ++ again ++ to_call) = Some c /\
    map es_attempt (we_states (c_exec _ c)) = [1; 2; 2]%Z /\ awaiting c 0 "a" ex_input /\ c_lock _ c = None.
Proof.
  split.
  - intros parent name cfg H E. destruct H as [name cfg H|pname p bs b name cfg H1 H2 H3 H4 H5].
    + cbn in H. repeat (match type of H with (if ?b then _ else _) = _ => destruct b eqn:?; [inversion H; subst; cbn in E; try discriminate E; inversion E; subst; discriminate|] end). discriminate.
    + cbn in H1. repeat (match type of H1 with (if ?b then _ else _) = _ => destruct b eqn:?; [inversion H1; subst; discriminate H2|] end). discriminate.
  - cbv zeta. eexists. split; [vm_compute; reflexivity|]. split; [reflexivity|]. split; [do 3 eexists; split; reflexivity|reflexivity].
Qed.

Print Assumptions C140_next_number_partial.
Print Assumptions C140_counted_refuted.
