(** More invariants of the state machine: fixed fields, reported completions, no
    deadlock, parallel branches (C12, C18, C19, C58, C59). *)
From Verif Require Import Base Json WfTypes StateMachineModel StateMachineSpec StateMachineProofs StateMachineSeq StateMachineErr.
Open Scope string_scope.

Section More.
  Context {T : Type}.
  Variable render : T -> json -> json + render_error.
  Variable extract : json -> string -> json + string.
  Variable inject : json -> string -> json -> json + string.
  Variable has_handler : string -> bool.
  Variable wait_time : wait_config -> json -> Z -> N + (bool * option string * string).
  Variable spec : workflow_spec T.
  Notation STEP := (step_pc T render extract inject has_handler wait_time spec).
  Notation SM_STEP := (sm_step T render extract inject has_handler wait_time spec).
  Notation RUN := (sm_run T render extract inject has_handler wait_time spec).
  Notation INV := (inv render extract has_handler spec).
  Notation REACH := (reachable render extract inject has_handler wait_time spec).

  Lemma reach_ind initial (P : config T -> Prop) :
    we_states initial = [] ->
    P (sm_init T spec initial) ->
    (forall c a c', INV c -> P c -> SM_STEP c a = Some c' -> P c') ->
    forall c, REACH initial c -> P c.
  Proof.
    intros Hi P0 PS c (acts & R).
    assert (G : forall acts c0 c, INV c0 -> P c0 -> RUN c0 acts = Some c -> P c).
    { clear - PS. induction acts as [|a acts IH]; cbn; intros c0 c I H R.
      - inversion R; subst; exact H.
      - destruct (SM_STEP c0 a) as [c1|] eqn:E; [|discriminate].
        eapply IH; [| |exact R]; [eapply inv_step; eauto|eapply PS; eauto]. }
    eapply G; [| |exact R]; [now apply inv_init|exact P0].
  Qed.

  Ltac cases p a H :=
    destruct p, a; cbn in H; try discriminate H;
    repeat (match type of H with context [match ?x with _ => _ end] => destruct x eqn:?; try discriminate H end);
    inversion H; subst; clear H.

  (** *** Fields that never change *)
  Definition p_identity (initial : wf_execution) (p : pc T) : Prop :=
    match p with
    | PRecordSave _ e _ _ _ | PRecordEvent _ e _ _ _ | PRecordComplete _ e _ => same_identity e initial
    | _ => True
    end.
  Definition f_identity (initial : wf_execution) (f : effect) : Prop :=
    match f with
    | FSave p _ => sp_input p = we_input initial /\ sp_started p = we_started initial
    | FEvent (EvComplete e) => same_identity e initial
    | _ => True
    end.

  Lemma identity_step initial c t p now a o :
    same_identity (c_exec T c) initial -> p_identity initial p -> STEP c t p now a = Some o ->
    same_identity (o_exec T o) initial /\ p_identity initial (o_pc T o) /\ Forall (f_identity initial) (o_effects T o)
    /\ Forall (fun th => p_identity initial (th_pc T th)) (o_spawn T o).
  Proof.
    intros S P H.
    assert (S' : forall e, same_identity e initial -> sp_input (payload_of e) = we_input initial
                 /\ sp_started (payload_of e) = we_started initial).
    { intros e (H1 & H2 & H3 & H4). split; assumption. }
    destruct p, a; cbn -[spawn_branches] in H; try discriminate H;
    repeat (match type of H with context [match ?x with _ => _ end] => destruct x eqn:?; try discriminate H end);
    try (unfold continue_after in H;
         repeat (match type of H with context [match ?x with _ => _ end] => destruct x eqn:?; try discriminate H end));
    inversion H; subst; clear H; cbn in *; repeat split; auto; try apply S; repeat constructor; auto;
      try (apply S'; assumption); try apply P; try (apply S').
    all: try (apply Forall_map; apply Forall_forall; intros x _; match goal with |- context [lookup ?a ?b] => destruct (lookup a b) end; exact Logic.I).
    all: try (match goal with |- context [lookup ?a ?b] => destruct (lookup a b) end; exact Logic.I).
  Qed.

  (** Generic lifting of a per-thread fact and a per-effect fact. *)
  Lemma lift_step c a c' (G : config T -> Prop) (P : nat -> list effect -> pc T -> option (option json) -> Prop) :
    INV c -> SM_STEP c a = Some c' ->
    (forall t th, nth_error (c_threads T c) t = Some th -> P t (effects_of t (c_log T c)) (th_pc T th) (th_ret T th)) ->
    (forall th o, nth_error (c_threads T c) (a_thread a) = Some th ->
      STEP c (a_thread a) (th_pc T th) (a_now a) (a_answer a) = Some o ->
      let r := match th_ret T th with Some r => Some r | None => o_ret T o end in
      P (a_thread a) (effects_of (a_thread a) (c_log T c) ++ o_effects T o)%list (final_pc T r (o_pc T o)) r
      /\ forall i th', nth_error (o_spawn T o) i = Some th' ->
           P (length (c_threads T c) + i) [] (th_pc T th') (th_ret T th')) ->
    forall t th, nth_error (c_threads T c') t = Some th -> P t (effects_of t (c_log T c')) (th_pc T th) (th_ret T th).
  Proof.
    intros I H P0 PS t th E. apply sm_step_inv in H. destruct H as (th0 & o & H0 & Hs & ->).
    destruct (PS th0 o H0 Hs) as [PA PB]. clear PS. cbn [c_threads c_log] in *.
    assert (Hlt : a_thread a < length (c_threads T c)) by (apply nth_error_Some; congruence).
    destruct (Nat.lt_ge_cases t (length (c_threads T c))) as [Hu|Hu].
    - rewrite nth_error_app1 in E by (now rewrite set_nth_length).
      destruct (Nat.eq_dec t (a_thread a)) as [->|Hne].
      + erewrite nth_set_nth_eq in E by eauto. inversion E; subst. cbn.
        rewrite effects_of_app, effects_of_same. exact PA.
      + rewrite nth_set_nth_ne in E by assumption. rewrite effects_of_app, effects_of_other, app_nil_r by assumption. auto.
    - rewrite nth_error_app2 in E by (now rewrite set_nth_length). rewrite set_nth_length in E.
      rewrite effects_of_app, effects_of_other, app_nil_r by lia.
      rewrite effects_of_new.
      + replace t with (length (c_threads T c) + (t - length (c_threads T c))) by lia. eapply PB; eauto.
      + intros u f Hin. apply (inv_tids _ _ _ _ _ I) in Hin. lia.
  Qed.

  Lemma identity initial c : we_states initial = [] -> REACH initial c ->
    same_identity (c_exec T c) initial /\ (forall t f, In (t, f) (c_log T c) -> f_identity initial f).
  Proof.
    intros Hi R.
    enough (same_identity (c_exec T c) initial /\
            (forall t th, nth_error (c_threads T c) t = Some th -> p_identity initial (th_pc T th)) /\
            (forall t f, In (t, f) (c_log T c) -> f_identity initial f)) by tauto.
    revert c R. apply reach_ind; [exact Hi| |].
    - cbn [sm_init c_exec c_threads c_log]. split; [now repeat split|]. split; [|intros t f []].
      intros [|[|t]] th E; cbn in E; inversion E; subst; exact Logic.I.
    - intros c a c' I (P1 & P2 & P3) H.
      pose proof H as H'. apply sm_step_inv in H'. destruct H' as (th0 & o & H0 & Hs & Ec'). cbn zeta in Ec'.
      destruct (identity_step initial c _ _ _ _ o P1 (P2 _ _ H0) Hs) as (Q1 & Q2 & Q3 & Q4).
      split; [subst; exact Q1|]. split.
      + apply (lift_step c a c' (fun _ => True) (fun _ _ p _ => p_identity initial p)); auto.
        intros th o' E Ho'. rewrite H0 in E. inversion E; subst th. rewrite Hs in Ho'. inversion Ho'; subst o'.
        cbn zeta. split.
        * destruct (o_pc T o), (match th_ret T th0 with Some r => Some r | None => o_ret T o end); exact Q2.
        * intros i th' Hn. rewrite Forall_forall in Q4. apply Q4. eapply nth_error_In; eauto.
      + subst c'. cbn. intros t f Hin. apply in_app_or in Hin. destruct Hin as [Hin|Hin]; [eauto|].
        apply in_map_iff in Hin. destruct Hin as (x & Hx & Hin). inversion Hx; subst. rewrite Forall_forall in Q3. auto.
  Qed.

  (** *** Completions are reported *)
  Lemma config_declared n parent cfg : derive_state_config T spec n parent = inl cfg -> declared spec parent n cfg.
  Proof.
    unfold derive_state_config. destruct parent as [q|].
    - destruct (lookup q (ws_states spec)) as [p|] eqn:E; [|discriminate].
      unfold find_parallel_child_state_config. destruct (sc_type p) eqn:Et; try discriminate.
      destruct (sc_parallel_branches p) as [bs|] eqn:Eb; [|discriminate].
      match goal with |- context [flat_map ?f bs] => set (g := f) end.
      destruct (flat_map g bs) as [|x l] eqn:F; [discriminate|]. intros H. inversion H; subst x.
      assert (In cfg (flat_map g bs)) as Hin by (rewrite F; now left).
      apply in_flat_map in Hin. destruct Hin as (b & Hb & Hc). unfold g in Hc.
      match type of Hc with In _ (match ?y with _ => _ end) => destruct y eqn:El end; [|destruct Hc].
      destruct Hc as [->|[]]. econstructor; eauto.
    - destruct (lookup n (ws_states spec)) eqn:E; [|discriminate]. intros H. inversion H; subst. now constructor.
  Qed.
  Notation always_reports := (always_reports wait_time spec).

  Definition catch_only (k : err_kind) : bool :=
    match k with InvalidInputPath | PayloadTemplateFailure | InvalidPayloadTemplate => true | _ => false end.

  Definition main_ok (t : nat) (hist : list effect) (p : pc T) : Prop :=
    t = 0 ->
    match p with
    | PError _ (k, _) _ => catch_only k = false
    | PCatch _ _ _ _ | PDone _ _ => completions hist <> []
    | _ => True
    end.

  Lemma completions_snoc h e r : completions (h ++ FEvent (EvComplete e) :: r)%list <> [].
  Proof. rewrite completions_app. cbn. intros H. apply app_eq_nil in H. destruct H as [_ H]. discriminate. Qed.

  Lemma main_step c th a o :
    always_reports -> INV c -> nth_error (c_threads T c) (a_thread a) = Some th ->
    main_ok (a_thread a) (effects_of (a_thread a) (c_log T c)) (th_pc T th) ->
    STEP c (a_thread a) (th_pc T th) (a_now a) (a_answer a) = Some o ->
    main_ok (a_thread a) (effects_of (a_thread a) (c_log T c) ++ o_effects T o)%list (o_pc T o).
  Proof.
    intros AR I Hth M H Ht. specialize (M Ht).
    pose proof (inv_threads _ _ _ _ _ I _ _ Hth) as TI.
    destruct (th_pc T th) eqn:Ep, (a_answer a); cbn in H; try discriminate H; cbn in TI, M;
      try (destruct e as [kk ee]; discriminate H).
    - destruct (derive_state_config T spec name parent) as [cfg|[kk e]] eqn:Ec.
      + destruct (AR _ _ _ (config_declared _ _ _ Ec)) as (A1 & A2 & A3). unfold prepare_state_input in H. rewrite A1 in H. inversion H; subst. exact Logic.I.
      + inversion H; subst; clear H. cbn.
        unfold derive_state_config, find_parallel_child_state_config in Ec.
        repeat match type of Ec with context [match ?x with _ => _ end] => destruct x end;
            inversion Ec; subst; reflexivity.
    - destruct (c_lock T c); inversion H; subst; exact Logic.I.
    - destruct err; inversion H; subst; cbn; auto.
    - inversion H; subst; exact Logic.I.
    - destruct TI as ((L1 & _) & _). destruct (AR _ _ _ (config_declared _ _ _ L1)) as (A1 & A2 & A3).
      destruct A3 as [A3|[A3|[A3|[A3 A4]]]]; rewrite A3 in H.
      + rewrite A2 in H. destruct (has_handler (es_name st)); inversion H; subst; cbn; auto.
      + destruct (sc_parallel_branches cfg) as [[|b bs]|]; inversion H; subst; cbn; auto.
      + inversion H; subst; cbn; auto.
      + destruct (sc_wait_config cfg) as [w|] eqn:Ew.
        * destruct (wait_time w input (a_now a)) as [n|[[tp ov] msg]] eqn:Et; inversion H; subst; cbn; auto.
          destruct tp; [|reflexivity]. exfalso. eapply A4; eauto.
        * inversion H; subst; cbn; auto.
    - destruct r as [v|[n m]]; inversion H; subst; cbn; auto.
    - destruct (join_results T c children) as [rs|]; [|discriminate]. destruct (existsb _ rs); inversion H; subst; cbn; auto.
    - unfold prepare_state_output in H. destruct (sc_result_path cfg).
      + destruct (inject input s output); inversion H; subst; cbn; auto.
      + destruct (sc_output_path cfg); [destruct (extract output s)|]; inversion H; subst; cbn; auto.
    - destruct (c_lock T c); [discriminate|]. destruct (update_state _ _ _ _) as [[? ?]|]; inversion H; subst; cbn; auto.
    - destruct err; [inversion H; subst; cbn; auto|]. destruct (sc_next cfg); [inversion H; subst; cbn; auto|].
      destruct (match sc_end cfg with Some b => b | None => false end); inversion H; subst; cbn; auto.
    - destruct (c_lock T c); inversion H; subst; cbn; auto.
    - destruct err; inversion H; subst; cbn; auto.
    - inversion H; subst; cbn. apply completions_snoc.
    - destruct e as [kk ee]. destruct kk; inversion H; subst; cbn; auto; discriminate M.
    - destruct (c_lock T c); [discriminate|].
      match type of H with context [let '(_, _) := ?x in _] => destruct x end. inversion H; subst; cbn; auto.
    - destruct (c_lock T c); [discriminate|].
      match type of H with context [update_state ?x1 ?x2 ?x3 ?x4] => destruct (update_state x1 x2 x3 x4) as [[? ?]|] end;
        inversion H; subst; cbn; auto. destruct persist; auto.
    - inversion H; subst; cbn; auto.
    - destruct TI as [_ CO]. destruct can_continue; [|inversion H; subst; cbn; auto].
      destruct k as [|ee retry ct att exc inp]; cbn in CO; [discriminate|]. destruct CO as (_ & C2 & _).
      destruct retry; [|discriminate]. destruct exc; [discriminate|]. inversion H; subst; cbn; auto.
    - destruct TI as (h & s & _ & _ & CO).
      destruct k as [|ee retry ct att exc inp]; cbn in CO.
      + inversion H; subst; cbn. apply completions_snoc.
      + destruct CO as (_ & C2 & _). destruct retry; [destruct exc; [|discriminate]|]; inversion H; subst; cbn; apply completions_snoc.
    - destruct (c_lock T c); inversion H; subst; cbn; auto.
    - destruct catch as [rules|]; [|inversion H; subst; cbn; now rewrite app_nil_r].
      destruct (List.find _ rules) as [rule|]; [|inversion H; subst; cbn; now rewrite app_nil_r].
      destruct (c_lock T c); [discriminate|].
      destruct (prepare_input_from_catch inject rule e input) as [v|[? ?]]; inversion H; subst; cbn; auto.
  Qed.

  Lemma effects_of_incl t log f : In f (effects_of t log) -> In f (effects log).
  Proof.
    unfold effects_of, effects. intros H. apply in_map_iff in H. destruct H as (x & <- & H). apply filter_In in H.
    apply in_map. tauto.
  Qed.
  Lemma completions_of t log : completions (effects_of t log) <> [] -> completions (effects log) <> [].
  Proof.
    intros H E. apply H. destruct (completions (effects_of t log)) as [|e l] eqn:C; [reflexivity|]. exfalso.
    assert (In e (completions (effects_of t log))) as Hin by (rewrite C; now left).
    unfold completions in Hin. apply in_flat_map in Hin. destruct Hin as (f & Hf & Hin).
    assert (In e (completions (effects log))) as Hin'.
    { unfold completions. apply in_flat_map. exists f. split; [eapply effects_of_incl; eauto|exact Hin]. }
    rewrite E in Hin'. exact Hin'.
  Qed.

  Lemma completion_reported initial c : we_states initial = [] -> always_reports -> REACH initial c ->
    ended_thread c 0 -> completions (effects (c_log T c)) <> [].
  Proof.
    intros Hi AR R (v & r & E).
    assert (G : forall t th, nth_error (c_threads T c) t = Some th -> main_ok t (effects_of t (c_log T c)) (th_pc T th)).
    { refine (reach_ind initial (fun c => forall t th, nth_error (c_threads T c) t = Some th ->
        main_ok t (effects_of t (c_log T c)) (th_pc T th)) Hi _ _ c R); clear - AR Hi.
      - intros [|[|t]] th E; cbn in E; inversion E; subst; cbn; intros _; exact Logic.I.
      - intros c a c' I P H. apply (lift_step c a c' (fun _ => True) (fun t h p _ => main_ok t h p)); auto.
        intros th o Hth Hs. cbn zeta. split.
        + pose proof (main_step c th a o AR I Hth (P _ _ Hth) Hs) as M.
          destruct (o_pc T o), (match th_ret T th with Some r => Some r | None => o_ret T o end); exact M.
        + intros i th' Hn Hz. exfalso. assert (length (c_threads T c) = 0) as Hl by lia. apply length_zero_iff_nil in Hl.
          rewrite Hl in Hth. destruct (a_thread a); discriminate. }
    specialize (G 0 _ E eq_refl). cbn in G. eapply completions_of; eauto.
  Qed.

  (** *** No deadlock *)
  Definition children_ok (n t : nat) (p : pc T) : Prop :=
    match p with PJoin _ ks _ _ _ => forall k, In k ks -> t < k /\ k < n | _ => True end.

  Lemma children_step c t p now a o : STEP c t p now a = Some o -> t < length (c_threads T c) ->
    children_ok (length (c_threads T c)) t p ->
    children_ok (length (c_threads T c) + length (o_spawn T o)) t (o_pc T o).
  Proof.
    intros H Hlt C.
    destruct p, a; cbn -[spawn_branches] in H; try discriminate H;
    repeat (match type of H with context [match ?x with _ => _ end] => destruct x eqn:?; try discriminate H end);
    try (unfold continue_after in H;
         repeat (match type of H with context [match ?x with _ => _ end] => destruct x eqn:?; try discriminate H end));
    inversion H; subst; clear H; cbn; auto.
    intros k Hk. assert (Hk' : In k (seq (length (c_threads T c)) (S (length l0)))) by exact Hk.
    apply in_seq in Hk'. unfold spawn_branches. cbn [map length]. rewrite map_length. destruct Hk' as [HA HB]; split; [eapply Nat.lt_le_trans; eassumption | exact HB].
  Qed.

  Lemma children_mono n n' t p : n <= n' -> children_ok n t p -> children_ok n' t p.
  Proof. intros Hn. destruct p; cbn; auto. intros H k Hk. specialize (H k Hk). lia. Qed.

  Lemma children_reach initial c : we_states initial = [] -> REACH initial c ->
    forall t th, nth_error (c_threads T c) t = Some th -> children_ok (length (c_threads T c)) t (th_pc T th).
  Proof.
    intros Hi R. refine (reach_ind initial (fun c => forall t th, nth_error (c_threads T c) t = Some th ->
        children_ok (length (c_threads T c)) t (th_pc T th)) Hi _ _ c R); clear - Hi.
    - intros [|[|t]] th E; cbn in E; inversion E; subst; exact Logic.I.
    - intros c a c' I P H.
      assert (Hn : exists th o, nth_error (c_threads T c) (a_thread a) = Some th
         /\ STEP c (a_thread a) (th_pc T th) (a_now a) (a_answer a) = Some o
         /\ length (c_threads T c') = length (c_threads T c) + length (o_spawn T o)).
      { apply sm_step_inv in H. destruct H as (th & o & H0 & Hs & ->). exists th, o. repeat split; auto.
        cbn. now rewrite app_length, set_nth_length. }
      destruct Hn as (th0 & o0 & H0 & Hs0 & Hl).
      apply (lift_step c a c' (fun _ => True) (fun t h p _ => children_ok (length (c_threads T c')) t p)); auto.
      + intros t th E. eapply children_mono; [|eauto]. lia.
      + intros th o Hth Hs. rewrite H0 in Hth. inversion Hth; subst th. rewrite Hs0 in Hs. inversion Hs; subst o. cbn zeta. split.
        * assert (Hlt : a_thread a < length (c_threads T c)) by (apply nth_error_Some; congruence).
          pose proof (children_step c _ _ _ _ o0 Hs0 Hlt (P _ _ H0)) as C. rewrite <- Hl in C.
          destruct (o_pc T o0), (match th_ret T th0 with Some r => Some r | None => o_ret T o0 end); exact C.
        * intros i th' Hn. destruct (step_ok _ _ _ _ _ _ c _ th0 _ _ _ o0 I H0 eq_refl Hs0) as (_ & _ & _ & _ & _ & Sp).
          rewrite Forall_forall in Sp. specialize (Sp th' (nth_error_In _ _ Hn)).
          destruct (th_pc T th'); try contradiction; exact Logic.I.
  Qed.

  Definition finished_pc (p : pc T) : bool := match p with PDone _ _ | PPanicked _ => true | _ => false end.

  Lemma enabled c t th : nth_error (c_threads T c) t = Some th -> finished_pc (th_pc T th) = false ->
    (c_lock T c = None \/ holding (th_pc T th) = true) ->
    (forall ks st cfg i, th_pc T th = PJoin T ks st cfg i -> join_results T c ks <> None) ->
    exists a c', SM_STEP c a = Some c' /\ a_thread a = t.
  Proof.
    intros Hth Hf Hl Hj.
    enough (exists ans o, STEP c t (th_pc T th) 0%Z ans = Some o) as (ans & o & Hs).
    { exists {| a_thread := t; a_now := 0%Z; a_answer := ans |}. eexists.
      split; [unfold sm_step; cbn [a_thread a_now a_answer]; rewrite Hth, Hs; reflexivity|reflexivity]. }
    destruct (th_pc T th) eqn:Ep; try discriminate Hf; cbn [holding] in Hl.
    all: try (exists (ASaved None); eexists; reflexivity).
    all: try (exists (AHandler (inl JNull)); eexists; reflexivity).
    all: try (destruct Hl as [Hl|Hl]; [|discriminate Hl]).
    all: try (exists ANothing; eexists; cbn; rewrite ?Hl; reflexivity).
    - exists ANothing. cbn. destruct (join_results T c children) as [rs|] eqn:Ej; [eexists; reflexivity|].
      exfalso. eapply Hj; eauto.
    - destruct e as [k e]. exists ANothing. eexists. reflexivity.
    - exists ANothing. cbn. rewrite Hl.
      match goal with |- context [let '(_, _) := ?x in _] => destruct x end. eexists. reflexivity.
    - exists ANothing. cbn. destruct catch as [rules|]; [|eexists; reflexivity].
      destruct (List.find _ rules); [|eexists; reflexivity]. rewrite Hl. eexists. reflexivity.
  Qed.

  Lemma join_ready c ks : (forall k, In k ks -> exists th, nth_error (c_threads T c) k = Some th /\ finished_pc (th_pc T th) = true) ->
    join_results T c ks <> None.
  Proof.
    induction ks as [|k ks IH]; cbn; [discriminate|]. intros H.
    destruct (H k (or_introl eq_refl)) as ([p r] & E & F). rewrite E.
    assert (join_results T c ks <> None) as J by (apply IH; auto).
    destruct (join_results T c ks); [|congruence]. destruct p; try discriminate F; discriminate.
  Qed.

  Lemma last_unfinished (ths : list (thread T)) :
    (exists t th, nth_error ths t = Some th /\ finished_pc (th_pc T th) = false) ->
    exists t th, nth_error ths t = Some th /\ finished_pc (th_pc T th) = false /\
      forall k thk, t < k -> nth_error ths k = Some thk -> finished_pc (th_pc T thk) = true.
  Proof.
    induction ths as [|x ths IH] using rev_ind.
    - intros (t & th & E & _). destruct t; discriminate.
    - intros (t & th & E & F). destruct (finished_pc (th_pc T x)) eqn:Fx.
      + destruct IH as (t' & th' & E' & F' & G).
        { exists t, th. split; [|exact F]. destruct (Nat.lt_ge_cases t (length ths)).
          - now rewrite nth_error_app1 in E by assumption.
          - rewrite nth_error_app2 in E by assumption. destruct (t - length ths) as [|[|]]; cbn in E; inversion E; subst. congruence. }
        exists t', th'. split; [rewrite nth_error_app1; [exact E'|apply nth_error_Some; congruence]|]. split; [exact F'|].
        intros k thk Hk Ek. destruct (Nat.lt_ge_cases k (length ths)).
        * rewrite nth_error_app1 in Ek by assumption. eauto.
        * rewrite nth_error_app2 in Ek by assumption. destruct (k - length ths) as [|[|]]; cbn in Ek; inversion Ek; subst. exact Fx.
      + exists (length ths), x. split; [rewrite nth_error_app2, Nat.sub_diag by lia; reflexivity|]. split; [exact Fx|].
        intros k thk Hk Ek. exfalso.
        assert (k < length (ths ++ [x])) by (apply nth_error_Some; congruence).
        rewrite app_length in *. cbn in *. lia.
  Qed.

  Lemma no_deadlock initial c : we_states initial = [] -> REACH initial c ->
    (exists a c', SM_STEP c a = Some c') \/
    (forall t th, nth_error (c_threads T c) t = Some th -> ended_thread c t \/ crashed_thread c t).
  Proof.
    intros Hi R. assert (I : INV c) by (eapply inv_reachable; eauto).
    destruct (Exists_dec (fun th => finished_pc (th_pc T th) = false) (c_threads T c)) as [E|N].
    { intros x. destruct (finished_pc (th_pc T x)); [right; discriminate|left; reflexivity]. }
    - left. apply Exists_exists in E. destruct E as (th & Hin & F). apply In_nth_error in Hin. destruct Hin as (t & E).
      destruct (c_lock T c) as [u|] eqn:L.
      + assert (exists thu, nth_error (c_threads T c) u = Some thu) as (thu & Eu).
        { pose proof (inv_holder _ _ _ _ _ I u L) as Hu. apply nth_error_Some in Hu. destruct (nth_error (c_threads T c) u); [eauto|congruence]. }
        pose proof (proj2 (inv_lock _ _ _ _ _ I u thu Eu) L) as Hh.
        destruct (enabled c u thu Eu) as (a & c' & S & _); eauto.
        * destruct (th_pc T thu); try discriminate Hh; reflexivity.
        * intros ks st cfg i Ep. rewrite Ep in Hh. discriminate.
      + destruct (last_unfinished (c_threads T c)) as (u & thu & Eu & Fu & G); [eauto|].
        destruct (enabled c u thu Eu Fu) as (a & c' & S & _); eauto.
        intros ks st cfg i Ep. apply join_ready. intros k Hk.
        pose proof (children_reach initial c Hi R u thu Eu) as C. rewrite Ep in C. cbn in C. destruct (C k Hk) as [C1 C2].
        apply nth_error_Some in C2. destruct (nth_error (c_threads T c) k) as [thk|] eqn:Ek; [|congruence].
        exists thk. split; [reflexivity|]. eapply G; eauto.
    - right. intros t th E. assert (F : finished_pc (th_pc T th) = true).
      { destruct (finished_pc (th_pc T th)) eqn:F; [reflexivity|]. exfalso. apply N. apply Exists_exists. exists th.
        split; [eapply nth_error_In; eauto|exact F]. }
      destruct th as [p r]. destruct p; try discriminate F; [left; eexists; eexists; exact E|right; eexists; exact E].
  Qed.

  (** *** Parallel branches *)
  Notation simple_branches := (simple_branches spec).

  (** Positions of a branch always carry the parallel state's name. *)
  Definition in_branch (p : pc T) : Prop :=
    match p with
    | PStart _ _ _ _ q | PTransition _ _ _ _ _ q | PTransitionSave _ _ _ _ _ q | PTransitionEvent _ _ _ _ _ q
    | PBody _ _ _ _ q | PHandler _ _ _ _ q | PSuccess _ _ _ _ _ q | PCompleted _ _ _ _ _ _ q
    | PRecord _ _ q _ _ _ _ _ => q <> None
    | PError _ (_, e) _ | PCheckAttempts _ _ e _ _ _ | PRetry _ e _ | PCatch _ _ e _ => ei_parent e <> None
    | PDone _ _ | PPanicked _ => True
    | PJoin _ _ _ _ _ | PCompletedSave _ _ _ _ _ _ | PFinish _ _ _ | PFinishSave _ _ _ | PFinishEvent _ _
    | PRecordSave _ _ _ _ _ | PRecordEvent _ _ _ _ _ | PRecordComplete _ _ _ => False
    end.
  Definition branch_ret (r : option (option json)) : Prop := forall v, r = Some (Some v) -> v = JObj [].
  Definition done_ret (p : pc T) : Prop := match p with PDone _ (Some v) => v = JObj [] | _ => True end.

  Lemma branch_step c th t now a o :
    simple_branches -> INV c -> nth_error (c_threads T c) t = Some th ->
    in_branch (th_pc T th) -> STEP c t (th_pc T th) now a = Some o ->
    in_branch (o_pc T o) /\ branch_ret (o_ret T o) /\ done_ret (o_pc T o).
  Proof.
    intros SB I Hth B H.
    pose proof (inv_threads _ _ _ _ _ I _ _ Hth) as TI.
    pose proof (inv_records _ _ _ _ _ I) as RI.
    assert (N0 : branch_ret None) by discriminate.
    assert (N1 : branch_ret (Some None)) by (intros v Hv; discriminate).
    destruct (th_pc T th) eqn:Ep, a; cbn in H; try discriminate H; cbn in B, TI; try contradiction;
      try (destruct e as [kk ee]; discriminate H).
    - destruct parent as [pn|]; [|contradiction].
      destruct (derive_state_config T spec name (Some pn)) as [cfg|[kk e]] eqn:Ec.
      + unfold prepare_state_input in H. destruct (sc_input_path cfg) as [ip|]; [destruct (extract input ip)|];
          inversion H; subst; cbn; auto; repeat split; auto; discriminate.
      + inversion H; subst; clear H. cbn.
        assert (ei_parent e = Some pn).
        { unfold derive_state_config, find_parallel_child_state_config in Ec.
          repeat match type of Ec with context [match ?x with _ => _ end] => destruct x end;
            inversion Ec; subst; reflexivity. }
        repeat split; auto. congruence.
    - destruct (c_lock T c); inversion H; subst; cbn; auto.
    - destruct err; inversion H; subst; cbn; auto.
    - inversion H; subst; cbn; auto.
    - destruct TI as ((L1 & _) & _). destruct parent as [pn|]; [|contradiction].
      destruct (SB _ _ _ (config_declared _ _ _ L1)) as [NP NW].
      destruct (sc_type cfg); try congruence.
      + destruct (has_handler (es_name st)).
        * destruct (sc_payload_template cfg); [destruct (render t0 input) as [?|[?|?]]|]; inversion H; subst; cbn; auto.
        * inversion H; subst; cbn; auto.
      + inversion H; subst; cbn; repeat split; auto; intros v Hv; congruence.
      + inversion H; subst; cbn; repeat split; auto; intros v Hv; congruence.
      + inversion H; subst; cbn; repeat split; auto; intros v Hv; congruence.
      + inversion H; subst; cbn; repeat split; auto; intros v Hv; congruence.
      + inversion H; subst; cbn; auto.
    - destruct r as [v|[n m]]; inversion H; subst; cbn; auto.
    - unfold prepare_state_output in H. destruct (sc_result_path cfg).
      + destruct (inject input s output); inversion H; subst; cbn; auto.
      + destruct (sc_output_path cfg); [destruct (extract output s)|]; inversion H; subst; cbn; auto.
    - destruct (c_lock T c); [discriminate|]. destruct parent as [pn|]; [|contradiction].
      rewrite update_state_child in H by apply RI. inversion H; subst; cbn; auto.
    - destruct e as [kk ee]. destruct kk; inversion H; subst; cbn; auto.
    - destruct (c_lock T c); [discriminate|].
      match type of H with context [let '(_, _) := ?x in _] => destruct x end. inversion H; subst; cbn; auto.
    - destruct (c_lock T c); [discriminate|]. destruct parent as [pn|]; [|contradiction].
      rewrite update_state_child in H by (destruct can_continue; apply RI). inversion H; subst; cbn; auto.
    - destruct (c_lock T c); inversion H; subst; cbn; auto.
    - destruct catch as [rules|]; [|inversion H; subst; cbn; auto].
      destruct (List.find _ rules) as [rule|]; [|inversion H; subst; cbn; auto].
      destruct (c_lock T c); [discriminate|].
      unfold prepare_input_from_catch in H. destruct (ct_result_path rule).
      + destruct (inject input s _); inversion H; subst; cbn; auto.
      + inversion H; subst; cbn; auto.
  Qed.

  Lemma spawned name input bs i th : nth_error (spawn_branches T name input bs) i = Some th ->
    (exists n, th = {| th_pc := PStart T n input None (Some name); th_ret := None |})
    \/ th = {| th_pc := PDone T None; th_ret := Some None |}.
  Proof.
    intros H. apply nth_error_In in H. unfold spawn_branches in H. apply in_map_iff in H. destruct H as (b & <- & _).
    match goal with |- context [lookup ?a ?b] => destruct (lookup a b) end; eauto.
  Qed.

  Lemma spawn_of_step c t p now a o : STEP c t p now a = Some o ->
    o_spawn T o = [] \/ exists st cfg input q bs, p = PBody T st cfg input q /\ o_spawn T o = spawn_branches T (es_name st) input bs.
  Proof.
    intros H.
    destruct p, a; cbn -[spawn_branches] in H; try discriminate H;
    repeat (match type of H with context [match ?x with _ => _ end] => destruct x eqn:?; try discriminate H end);
    try (unfold continue_after in H;
         repeat (match type of H with context [match ?x with _ => _ end] => destruct x eqn:?; try discriminate H end));
    inversion H; subst; clear H; cbn -[spawn_branches]; auto.
    right. match goal with B : sc_parallel_branches _ = Some ?bs |- _ => exists st, cfg, input, parent, bs end. split; reflexivity.
  Qed.

  (** A branch never delivers anything but the empty object. *)
  Lemma branch_result initial c t v r : we_states initial = [] -> simple_branches -> REACH initial c ->
    1 <= t -> nth_error (c_threads T c) t = Some {| th_pc := PDone T (Some v); th_ret := r |} -> v = JObj [].
  Proof.
    intros Hi SB R Ht E.
    pose (P := fun (t : nat) (h : list effect) (p : pc T) (r : option (option json)) =>
      1 <= t -> in_branch p /\ branch_ret r /\ done_ret p).
    assert (G : forall t th, nth_error (c_threads T c) t = Some th -> P t [] (th_pc T th) (th_ret T th)).
    { refine (reach_ind initial (fun c => forall t th, nth_error (c_threads T c) t = Some th ->
        P t [] (th_pc T th) (th_ret T th)) Hi _ _ c R); clear - Hi SB.
      - intros [|[|t]] th E; cbn in E; inversion E; subst; intros Hz; lia.
      - intros c a c' I G H.
        assert (X : forall t th, nth_error (c_threads T c') t = Some th -> P t (effects_of t (c_log T c')) (th_pc T th) (th_ret T th)).
        2: { intros t th E. exact (X t th E). }
        apply (lift_step c a c' (fun _ => True) P I H); [intros t th E; exact (G t th E)|].
        + intros th o Hth Hs. cbn zeta. split.
          * intros Hz. destruct (G _ _ Hth Hz) as (G1 & G2 & G3).
            destruct (branch_step c th _ _ _ o SB I Hth G1 Hs) as (B1 & B2 & B3).
            assert (BR : branch_ret (match th_ret T th with Some r => Some r | None => o_ret T o end)).
            { destruct (th_ret T th); assumption. }
            split; [destruct (o_pc T o), (match th_ret T th with Some r => Some r | None => o_ret T o end); exact B1|].
            split; [exact BR|].
            destruct (match th_ret T th with Some r => Some r | None => o_ret T o end) as [[v|]|];
              destruct (o_pc T o); cbn; auto.
          * intros i th' Hn Hz. destruct (spawn_of_step _ _ _ _ _ _ Hs) as [E|(st & cfg & inp & q & bs & _ & E)]; rewrite E in Hn.
            -- destruct i; discriminate.
            -- apply spawned in Hn. destruct Hn as [(n & ->)| ->]; cbn.
               ++ repeat split; [discriminate|]. intros v Hv; discriminate.
               ++ repeat split. intros v Hv; discriminate. }
    destruct (G t _ E Ht) as (_ & _ & D). cbn in D. exact D.
  Qed.
End More.
