(** Invariants of the state machine. *)
From Verif Require Import Base Json WfTypes StateMachineModel StateMachineSpec.
Open Scope string_scope.

Lemma nth_set_nth_eq {A} n : forall (l : list A) x y, nth_error l n = Some y -> nth_error (set_nth n x l) n = Some x.
Proof. induction n; intros [|a l] x y H; cbn in *; try discriminate; [reflexivity|eauto]. Qed.
Lemma nth_set_nth_ne {A} n : forall (l : list A) x m, m <> n -> nth_error (set_nth n x l) m = nth_error l m.
Proof.
  induction n; intros [|a l] x [|m] H; cbn; try reflexivity; try congruence. apply IHn. congruence.
Qed.
Lemma set_nth_length {A} n : forall (l : list A) x, length (set_nth n x l) = length l.
Proof. induction n; intros [|a l] x; cbn; auto. Qed.

Lemma effects_of_app t l1 l2 : effects_of t (l1 ++ l2)%list = (effects_of t l1 ++ effects_of t l2)%list.
Proof. unfold effects_of. rewrite filter_app. apply map_app. Qed.
Lemma effects_of_same t fs : effects_of t (map (pair t) fs) = fs.
Proof.
  unfold effects_of. induction fs as [|f fs IH]; [reflexivity|]. cbn. rewrite Nat.eqb_refl. cbn. now f_equal.
Qed.
Lemma effects_of_other t u fs : u <> t -> effects_of u (map (pair t) fs) = [].
Proof.
  intros H. unfold effects_of. induction fs as [|f fs IH]; [reflexivity|]. cbn.
  destruct (Nat.eqb_spec t u); [congruence|exact IH].
Qed.

(** ** Records of states *)
Definition has_name (sts : list exec_state) (n : string) : Prop := In n (map es_name sts).

(** The in-memory record of the states only grows, names and attempts are fixed. *)
Definition same_record (a b : exec_state) : Prop :=
  es_name a = es_name b /\ es_attempt a = es_attempt b /\ es_parallel a = es_parallel b.
Definition evolves (a b : list exec_state) : Prop :=
  exists b1 new, b = (b1 ++ new)%list /\ Forall2 same_record a b1.

Lemma same_record_refl a : same_record a a. Proof. now repeat split. Qed.
Lemma Forall2_same_refl l : Forall2 same_record l l.
Proof. induction l; constructor; auto using same_record_refl. Qed.
Lemma evolves_refl l : evolves l l.
Proof. exists l, []. split; [symmetry; apply app_nil_r|apply Forall2_same_refl]. Qed.

Lemma Forall2_names a b : Forall2 same_record a b -> map es_name a = map es_name b.
Proof. induction 1 as [|x y l l' (H & _) _ IH]; cbn; congruence. Qed.
Lemma evolves_has_name a b n : evolves a b -> has_name a n -> has_name b n.
Proof.
  intros (b1 & new & -> & F) H. unfold has_name in *. rewrite map_app. apply in_or_app. left.
  now rewrite <- (Forall2_names _ _ F).
Qed.

Lemma update_state_none_some sts n f r x :
  update_state n None f sts = Some (r, x) ->
  exists pre s post, sts = (pre ++ s :: post)%list /\ es_name s = n /\ r = (pre ++ f s :: post)%list /\ x = f s
    /\ ~ In n (map es_name pre).
Proof.
  revert r x. induction sts as [|s sts IH]; intros r x; cbn; [discriminate|].
  destruct (String.eqb_spec (es_name s) n).
  - intros H. inversion H; subst. exists [], s, sts. cbn. auto 6.
  - destruct (update_state n None f sts) as [[r' x']|]; [|discriminate]. intros H; inversion H; subst.
    destruct (IH _ _ eq_refl) as (pre & s' & post & -> & Hn & -> & -> & Hni).
    exists (s :: pre), s', post. cbn. repeat split; auto. intros [?|?]; [congruence|contradiction].
Qed.
Lemma update_state_none_none sts n f : update_state n None f sts = None <-> ~ has_name sts n.
Proof.
  unfold has_name. induction sts as [|s sts IH]; cbn; [tauto|].
  destruct (String.eqb_spec (es_name s) n).
  - split; [discriminate|tauto].
  - destruct (update_state n None f sts) as [[r' x']|].
    + split; [discriminate|]. intros H. destruct IH as [_ IH]. discriminate IH. tauto.
    + split; [|reflexivity]. intros _ [?|?]; [congruence|]. destruct IH as [IH _]. now apply IH.
Qed.
Lemma update_branches_nil n f bs : bs = [] -> update_branches n f bs = None.
Proof. intros ->. reflexivity. Qed.
Lemma update_state_child sts n p f : Forall (fun s => es_parallel s = []) sts -> update_state n (Some p) f sts = None.
Proof.
  induction 1 as [|s l H _ IH]; cbn; [reflexivity|].
  destruct (String.eqb_spec p (es_name s)).
  - unfold update_child. rewrite H. now destruct (es_type s).
  - now rewrite IH.
Qed.
Lemma extract_state_child sts n p : Forall (fun s => es_parallel s = []) sts -> extract_state n (Some p) sts = None.
Proof.
  induction 1 as [|s l H _ IH]; cbn; [reflexivity|].
  destruct (String.eqb_spec p (es_name s)); [|exact IH].
  unfold find_parallel_child_state. rewrite H. now destruct (es_type s).
Qed.
Lemma extract_state_none sts n s : extract_state n None sts = Some s ->
  exists pre post, sts = (pre ++ s :: post)%list /\ es_name s = n /\ ~ In n (map es_name pre).
Proof.
  induction sts as [|x sts IH]; cbn; [discriminate|].
  destruct (String.eqb_spec (es_name x) n).
  - intros H; inversion H; subst. exists [], sts. cbn. auto.
  - intros H. destruct (IH H) as (pre & post & -> & ? & ?). exists (x :: pre), post. cbn. repeat split; auto.
    intros [?|?]; [congruence|contradiction].
Qed.
Lemma extract_state_has sts n : has_name sts n <-> exists s, extract_state n None sts = Some s.
Proof.
  unfold has_name. induction sts as [|x sts IH]; cbn.
  - split; [tauto|]. intros (s & H); discriminate.
  - destruct (String.eqb_spec (es_name x) n).
    + split; [eauto|tauto].
    + rewrite <- IH. split; [intros [?|?]; [congruence|assumption]|tauto].
Qed.

(** The first record of every name is a first attempt, and no record has children. *)
Definition records_ok (sts : list exec_state) : Prop :=
  Forall (fun s => es_parallel s = []) sts /\
  forall n s, extract_state n None sts = Some s -> es_attempt s = 1%Z.

Lemma extract_app n a b :
  extract_state n None (a ++ b) = match extract_state n None a with Some s => Some s | None => extract_state n None b end.
Proof. induction a as [|x a IH]; cbn; [reflexivity|]. now destruct (String.eqb (es_name x) n). Qed.

Lemma records_ok_push sts st :
  records_ok sts -> es_parallel st = [] -> (es_attempt st = 1%Z \/ has_name sts (es_name st)) ->
  records_ok (sts ++ [st]).
Proof.
  intros [H1 H2] Hp Ha. split.
  - apply Forall_app. auto.
  - intros n s. rewrite extract_app. destruct (extract_state n None sts) as [s'|] eqn:E.
    + intros H; inversion H; subst. eauto.
    + cbn. destruct (String.eqb_spec (es_name st) n) as [<-|]; [|discriminate]. intros H; inversion H; subst.
      destruct Ha as [|Ha]; [assumption|]. apply extract_state_has in Ha. destruct Ha as (s' & Ha). congruence.
Qed.

Lemma Forall2_extract n a b : Forall2 same_record a b ->
  match extract_state n None a, extract_state n None b with
  | Some x, Some y => same_record x y | None, None => True | _, _ => False end.
Proof.
  induction 1 as [|x y l l' H _ IH]; cbn; [exact I|]. destruct H as (Hn & Ha & Hp).
  rewrite <- Hn. destruct (String.eqb (es_name x) n); [repeat split; auto|exact IH].
Qed.
Lemma records_ok_same a b : Forall2 same_record a b -> records_ok a -> records_ok b.
Proof.
  intros F [H1 H2]. split.
  - clear H2. revert H1. induction F as [|x y l l' H F IH]; intros H1; constructor; inversion H1; subst; auto.
    destruct H as (_ & _ & <-). assumption.
  - intros n s Hs. pose proof (Forall2_extract n a b F) as E. rewrite Hs in E.
    destruct (extract_state n None a) as [x|] eqn:Ex; [|contradiction].
    destruct E as (_ & <- & _). eauto.
Qed.

Lemma Forall2_update pre s post f : same_record s (f s) ->
  Forall2 same_record (pre ++ s :: post) (pre ++ f s :: post).
Proof.
  intros H. apply Forall2_app; [apply Forall2_same_refl|]. constructor; [exact H|apply Forall2_same_refl].
Qed.

Lemma complete_same now r f s : same_record s (complete_state now r f s).
Proof. now repeat split. Qed.
Lemma fail_same now d s : same_record s (fail_state now d s).
Proof. now repeat split. Qed.

(** ** Steps *)
Section Inv.
  Context {T : Type}.
  Variable render : T -> json -> json + render_error.
  Variable extract : json -> string -> json + string.
  Variable inject : json -> string -> json -> json + string.
  Variable has_handler : string -> bool.
  Variable wait_time : wait_config -> json -> Z -> N + (bool * option string * string).
  Variable spec : workflow_spec T.
  Notation STEP := (step_pc T render extract inject has_handler wait_time spec).
  Notation SM_STEP := (sm_step T render extract inject has_handler wait_time spec).
  Notation RUN := (sm_run T render extract inject has_handler wait_time spec).

  Definition holding (p : pc T) : bool :=
    match p with
    | PTransitionSave _ _ _ _ _ _ | PTransitionEvent _ _ _ _ _ _ | PCompletedSave _ _ _ _ _ _
    | PFinishSave _ _ _ | PFinishEvent _ _ => true
    | _ => false
    end.

  Lemma sm_step_inv c a c' : SM_STEP c a = Some c' ->
    exists th o, nth_error (c_threads T c) (a_thread a) = Some th
      /\ STEP c (a_thread a) (th_pc T th) (a_now a) (a_answer a) = Some o
      /\ let ret := match th_ret T th with Some r => Some r | None => o_ret T o end in
         c' = {| c_exec := o_exec T o; c_lock := o_lock T o;
                 c_threads := (set_nth (a_thread a) {| th_pc := final_pc T ret (o_pc T o); th_ret := ret |}
                                 (c_threads T c) ++ o_spawn T o)%list;
                 c_log := (c_log T c ++ map (pair (a_thread a)) (o_effects T o))%list |}.
  Proof.
    unfold sm_step. destruct (nth_error _ _) as [th|]; [|discriminate].
    destruct (step_pc _ _ _ _ _ _ _ _ _ _ _ _) as [o|] eqn:E; [|discriminate].
    intros H; inversion H. exists th, o. auto.
  Qed.

  Definition live (st : exec_state) (cfg : state_config T) (input : json) (parent : option string) : Prop :=
    derive_state_config T spec (es_name st) parent = inl cfg
    /\ through extract (sc_input_path cfg) input (es_input st)
    /\ es_status st = InProgress /\ es_parallel st = [].

  Definition rule_of (e : err_info) (r : retry_config) : Prop :=
    exists cfg rs ename, derive_state_config T spec (ei_state e) (ei_parent e) = inl cfg
      /\ sc_retry cfg = Some rs /\ In r rs /\ error_matches ename (rt_match_errors r) = true.

  Definition cont_ok (k : err_cont) (parent : option string) (can_continue : bool) : Prop :=
    match k with
    | KStop => can_continue = false
    | KRetryOrCatch e retry catch attempts exceeded input =>
        ei_parent e = parent /\
        can_continue = match retry with Some _ => negb exceeded | None => false end /\
        forall r, retry = Some r -> exceeded = false ->
          attempts = 0%Z /\ rule_of e r /\ (parent = None -> limit_allows r)
    end.

  Definition failed_in (exec : wf_execution) (s : exec_state) (can_continue : bool) : Prop :=
    es_status s = Failed /\ (exists d, es_error s = Some d) /\ In s (we_states exec)
    /\ (can_continue = false -> we_status exec = Failed).

  Definition retryable (k : err_kind) : bool :=
    match k with
    | InvalidResultPath | InvalidOutputPath | ExecuteStepHandlerFailed | ParallelBranchesFailed => true
    | _ => false
    end.

  Definition t_inv (exec : wf_execution) (hist : list effect) (p : pc T) : Prop :=
    let known n := has_name (we_states exec) n in
    match p with
    | PStart _ _ _ prev _ => forall s, prev = Some s -> known (es_name s)
    | PTransition _ st cfg input prev parent =>
        live st cfg input parent /\ (es_attempt st = 1%Z \/ known (es_name st))
    | PTransitionSave _ st cfg input prev parent =>
        live st cfg input parent /\ known (es_name st) /\ saved_with (payload_of exec) st
    | PTransitionEvent _ st cfg input prev parent =>
        live st cfg input parent /\ known (es_name st)
        /\ exists h p, hist = (h ++ [FSave p true])%list /\ saved_with p st
    | PBody _ st cfg input parent =>
        live st cfg input parent /\ known (es_name st)
        /\ exists h p prev, hist = (h ++ [FSave p true; FEvent (EvTransition prev st)])%list /\ saved_with p st
    | PHandler _ st cfg input parent =>
        live st cfg input parent /\ known (es_name st) /\ sc_type cfg = ExecuteStep
        /\ has_handler (es_name st) = true /\ exists v, payload_is render (sc_payload_template cfg) input v
    | PJoin _ _ st _ _ | PSuccess _ _ st _ _ _ | PCompleted _ _ _ st _ _ _
    | PCompletedSave _ _ st _ _ _ => known (es_name st)
    | PFinish _ _ _ => True
    | PFinishSave _ _ _ => we_status exec = Succeeded
    | PFinishEvent _ _ => we_status exec = Succeeded /\ exists h, hist = (h ++ [FSave (payload_of exec) true])%list
    | PError _ (k, e) _ => retryable k = true -> known (ei_state e)
    | PCheckAttempts _ _ e retry _ _ => known (ei_state e) /\ forall r, retry = Some r -> rule_of e r
    | PRecord _ _ parent _ _ _ can k => cont_ok k parent can
    | PRecordSave _ exec' s can k => failed_in exec' s can /\ cont_ok k None can
    | PRecordEvent _ exec' s can k => failed_in exec' s can /\ cont_ok k None can
    | PRecordComplete _ exec' k => exists h s, hist = (h ++ [FEvent (EvFailure s)])%list
        /\ failed_in exec' s false /\ cont_ok k None false
    | PRetry _ _ _ | PCatch _ _ _ _ | PDone _ _ | PPanicked _ => True
    end.

  Definition good (f : effect) (hist : list effect) : Prop :=
    match f with
    | FEvent (EvTransition prev st) => exists h p, hist = (h ++ [FSave p true])%list /\ saved_with p st
    | FCall n v =>
        exists h p prev st cfg parent input,
          hist = (h ++ [FSave p true; FEvent (EvTransition prev st)])%list /\ saved_with p st
          /\ es_name st = n /\ derive_state_config T spec n parent = inl cfg
          /\ sc_type cfg = ExecuteStep /\ has_handler n = true
          /\ payload_is render (sc_payload_template cfg) input v
          /\ through extract (sc_input_path cfg) input (es_input st)
    | FEvent (EvComplete e) =>
        (we_status e = Succeeded /\ exists h, hist = (h ++ [FSave (payload_of e) true])%list)
        \/ (we_status e = Failed /\ exists h s, hist = (h ++ [FEvent (EvFailure s)])%list /\ In s (we_states e)
             /\ es_status s = Failed)
    | FEvent (EvFailure s) => es_status s = Failed /\ exists d, es_error s = Some d
    | FRetryDelay n k =>
        k = (-1)%Z /\ (exists h s, hist = (h ++ [FEvent (EvFailure s)])%list) /\
        exists cfg rs r ename, derive_state_config T spec n None = inl cfg /\ sc_retry cfg = Some rs
          /\ In r rs /\ error_matches ename (rt_match_errors r) = true /\ limit_allows r
    | FSave _ _ | FWait _ => True
    end.

  Definition log_ok (log : list (nat * effect)) : Prop :=
    forall pre t f post, log = (pre ++ (t, f) :: post)%list -> good f (effects_of t pre).

  Record inv (c : config T) : Prop := {
    inv_lock : forall t th, nth_error (c_threads T c) t = Some th ->
      (holding (th_pc T th) = true <-> c_lock T c = Some t);
    inv_threads : forall t th, nth_error (c_threads T c) t = Some th ->
      t_inv (c_exec T c) (effects_of t (c_log T c)) (th_pc T th);
    inv_records : records_ok (we_states (c_exec T c));
    inv_holder : forall t, c_lock T c = Some t -> t < length (c_threads T c);
    inv_tids : forall t f, In (t, f) (c_log T c) -> t < length (c_threads T c);
    inv_log : log_ok (c_log T c)
  }.

  Lemma t_inv_mono exec exec' hist p :
    evolves (we_states exec) (we_states exec') -> holding p = false ->
    t_inv exec hist p -> t_inv exec' hist p.
  Proof.
    intros E Hh. pose proof (fun n => evolves_has_name _ _ n E) as K.
    destruct p; cbn in *; try discriminate; auto; try tauto.
    - intros [? [?|?]]; auto.
    - intros (? & ? & ?); auto.
    - intros (? & ? & ? & ? & ?); auto 6.
    - destruct e as [k e]. intros H ?; auto.
    - intros [? ?]; auto.
  Qed.

  Lemma holding_final ret p : holding (final_pc T ret p) = holding p.
  Proof. destruct p, ret; reflexivity. Qed.
  Lemma t_inv_final exec hist ret p : t_inv exec hist p -> t_inv exec hist (final_pc T ret p).
  Proof. destruct p, ret; auto. Qed.

  Lemma prepare_input_through name parent cfg input v :
    prepare_state_input T extract name parent cfg input = inl v -> through extract (sc_input_path cfg) input v.
  Proof.
    unfold prepare_state_input, through. destruct (sc_input_path cfg); [|congruence].
    destruct (extract input s); congruence.
  Qed.

  Fixpoint all_good (hist fs : list effect) : Prop :=
    match fs with [] => True | f :: r => good f hist /\ all_good (hist ++ [f]) r end.

  Lemma find_retry e ename :
    forall r, match derive_state_config T spec (ei_state e) (ei_parent e) with
              | inl cfg => match sc_retry cfg with
                           | Some rs => List.find (fun r => error_matches ename (rt_match_errors r)) rs
                           | None => None
                           end
              | inr _ => None end = Some r -> rule_of e r.
  Proof.
    intros r. destruct (derive_state_config _ _ _ _) as [cfg|] eqn:E; [|discriminate].
    destruct (sc_retry cfg) as [rs|] eqn:Er; [|discriminate]. intros F. apply find_some in F.
    exists cfg, rs, ename. tauto.
  Qed.

  Local Hint Resolve evolves_refl Forall_nil : core.
  Local Arguments error_detail : simpl never.
  Ltac lk := split; [first [left; split; [reflexivity|auto; fail] | right; left; repeat split; auto; fail
                           | right; right; repeat split; auto; fail] |].

  Lemma spawn_ok name input bs :
    Forall (fun th => match th_pc T th with PStart _ _ _ None _ | PDone _ _ => True | _ => False end)
      (spawn_branches T name input bs).
  Proof.
    unfold spawn_branches. apply Forall_map. apply Forall_forall. intros x _.
    match goal with |- context [lookup ?a ?b] => destruct (lookup a b) end; exact Logic.I.
  Qed.

  (** Everything one step does to the invariant, except for the other threads. *)
  Lemma step_ok c t th p now a o :
    inv c -> nth_error (c_threads T c) t = Some th -> th_pc T th = p ->
    STEP c t p now a = Some o ->
    (* lock *)
    ((holding p = true /\ o_lock T o = (if holding (o_pc T o) then Some t else None))
     \/ (holding p = false /\ holding (o_pc T o) = false /\ o_lock T o = c_lock T c
         /\ (c_lock T c = None \/ o_exec T o = c_exec T c))
     \/ (holding p = false /\ holding (o_pc T o) = true /\ c_lock T c = None /\ o_lock T o = Some t))
    (* execution *)
    /\ evolves (we_states (c_exec T c)) (we_states (o_exec T o))
    /\ records_ok (we_states (o_exec T o))
    (* position *)
    /\ t_inv (o_exec T o) (effects_of t (c_log T c) ++ o_effects T o) (o_pc T o)
    /\ all_good (effects_of t (c_log T c)) (o_effects T o)
    /\ Forall (fun th => match th_pc T th with PStart _ _ _ None _ | PDone _ _ => True | _ => False end) (o_spawn T o).
  Proof.
    intros I Hth Hp H.
    pose proof (inv_threads c I t th Hth) as TI.
    pose proof (proj1 (inv_lock c I t th Hth)) as HL.
    rewrite Hp in TI, HL. clear Hp.
    pose proof (inv_records c I) as RI.
    destruct p, a; cbn in H; try discriminate H;
      try (match type of H with (let (_, _) := ?e in None) = _ => destruct e; discriminate H end).
    all: try (destruct (c_lock T c) eqn:EL; [discriminate H|]).
    all: cbn in TI, HL.
    - (* PStart *)
      destruct (derive_state_config T spec name parent) as [cfg|[k e]] eqn:Ec.
      + destruct (prepare_state_input T extract name parent cfg input) as [v|[k e]] eqn:Ei.
        * inversion H; subst; clear H. cbn; lk. repeat split; auto using evolves_refl.
          -- apply RI.
          -- apply RI.
          -- eapply prepare_input_through; eauto.
          -- destruct prev as [s|]; [|auto]. destruct (String.eqb_spec (es_name s) name); [|auto].
             right. subst. auto.
        * inversion H; subst; clear H. cbn; lk. repeat split; auto using evolves_refl.
          -- apply RI.
          -- apply RI.
          -- unfold prepare_state_input in Ei. destruct (sc_input_path cfg); [|discriminate].
             destruct (extract input s); [discriminate|]. inversion Ei; subst. discriminate.
      + inversion H; subst; clear H. cbn; lk. repeat split; auto using evolves_refl.
        * apply RI.
        * apply RI.
        * intros Hk. exfalso. unfold derive_state_config, find_parallel_child_state_config in Ec.
          repeat match type of Ec with context [match ?x with _ => _ end] => destruct x end;
            inversion Ec; subst; discriminate.
    - (* PTransition *)
      inversion H; subst; clear H. cbn. destruct TI as [(L1 & L2 & L3 & L4) TI].
      lk. repeat split; auto.
      + exists (we_states (c_exec T c)), [st]. split; [reflexivity|apply Forall2_same_refl].
      + apply records_ok_push; auto.
      + apply records_ok_push; auto.
      + unfold has_name. rewrite map_app. apply in_or_app. right. now left.
      + eexists; reflexivity.
    - (* PTransitionSave *)
      destruct err as [m|]; inversion H; subst; clear H; cbn; destruct TI as (L & K & S); lk.
      + repeat split; auto using evolves_refl; try apply RI; try discriminate.
      + repeat split; auto using evolves_refl; try apply RI; try apply L.
        exists (effects_of t (c_log T c)). eauto.
    - (* PTransitionEvent *)
      inversion H; subst; clear H; cbn. destruct TI as (L & K & h & p & Hh & S). lk.
      repeat split; auto using evolves_refl; try apply RI; try apply L.
      + exists h, p, prev. split; [|assumption]. rewrite Hh. now rewrite <- app_assoc.
      + eauto.
    - (* PBody *)
      destruct TI as (L & K & h & p & prev & Hh & S). destruct L as (L1 & L2 & L3 & L4).
      assert (G : sc_type cfg = ExecuteStep -> has_handler (es_name st) = true ->
        forall v, payload_is render (sc_payload_template cfg) input v ->
        good (FCall (es_name st) v) (effects_of t (c_log T c))).
      { intros. exists h, p, prev, st, cfg, parent, input. auto 10. }
      destruct (sc_type cfg) eqn:Et.
      + (* step *)
        destruct (has_handler (es_name st)) eqn:Ehh.
        * destruct (sc_payload_template cfg) as [tpl|] eqn:Etpl.
          -- destruct (render tpl input) as [v|re] eqn:Er; inversion H; subst; clear H; cbn [stay with_effects o_pc o_exec o_lock o_effects o_spawn t_inv holding]; lk;
               (split; [auto|]); (split; [exact RI|]); (split; [|split; [|auto]]); auto; try exact Logic.I; 
               try (split; [now repeat split|]; split; [assumption|]; rewrite ?Etpl; now eauto).
             ++ split; [|exact Logic.I]. apply G; auto.
             ++ destruct re; cbn; discriminate.
          -- inversion H; subst; clear H; cbn [stay with_effects o_pc o_exec o_lock o_effects o_spawn t_inv holding]; lk;
               (split; [auto|]); (split; [exact RI|]); (split; [|split; [|auto]]); auto;
               try (split; [now repeat split|]; split; [assumption|]; rewrite ?Etpl; cbn; now eauto).
             split; [|exact Logic.I]. apply G; auto. reflexivity.
        * inversion H; subst; clear H; cbn; lk. repeat split; auto; try apply RI; try discriminate.
      + inversion H; subst; clear H; cbn; lk. repeat split; auto; try apply RI.
      + (* parallel *)
        destruct (sc_parallel_branches cfg) as [[|b bs]|]; inversion H; subst; clear H; cbn; lk;
          (split; [auto|]); (split; [exact RI|]); (split; [|split; [|auto]]); auto; try discriminate.
        exact (spawn_ok (es_name st) input (b :: bs)).
      + (* wait *)
        destruct (sc_wait_config cfg) as [w|].
        * destruct (wait_time w input now) as [n|[[tp ov] msg]]; inversion H; subst; clear H; cbn; lk;
            repeat split; auto; try apply RI.
          destruct tp; discriminate.
        * inversion H; subst; clear H; cbn; lk. repeat split; auto; try apply RI; try discriminate.
      + inversion H; subst; clear H; cbn; lk. repeat split; auto; try apply RI.
      + inversion H; subst; clear H; cbn; lk. repeat split; auto; try apply RI.
      + inversion H; subst; clear H; cbn; lk. repeat split; auto; try apply RI.
      + inversion H; subst; clear H; cbn; lk. repeat split; auto; try apply RI; try discriminate.
    - (* PHandler *)
      destruct TI as (L & TI & _).
      destruct r as [v|[n m]]; inversion H; subst; clear H; cbn; lk;
        repeat split; auto using evolves_refl; try apply RI.
    - (* PJoin *)
      destruct (join_results T c children) as [rs|]; [|discriminate].
      destruct (existsb _ rs); inversion H; subst; clear H; cbn; lk;
        repeat split; auto using evolves_refl; try apply RI.
    - (* PSuccess *)
      unfold prepare_state_output in H.
      destruct (sc_result_path cfg) as [rp|].
      + destruct (inject input rp output); inversion H; subst; clear H; cbn; lk;
        repeat split; auto using evolves_refl; try apply RI.
      + destruct (sc_output_path cfg) as [op|].
        * destruct (extract output op); inversion H; subst; clear H; cbn; lk;
          repeat split; auto using evolves_refl; try apply RI.
        * inversion H; subst; clear H; cbn; lk;
          repeat split; auto using evolves_refl; try apply RI.
    - (* PCompleted *)
      destruct parent as [pn|].
      + rewrite update_state_child in H by apply RI. inversion H; subst; clear H; cbn; lk.
        repeat split; auto using evolves_refl; try apply RI.
      + destruct (update_state _ None _ _) as [[sts x]|] eqn:Eu.
        * apply update_state_none_some in Eu. destruct Eu as (pre & s & post & Es & Hn & -> & -> & Hni).
          inversion H; subst; clear H; cbn.
          assert (F : Forall2 same_record (we_states (c_exec T c)) (pre ++ complete_state now output final s :: post)).
          { rewrite Es. apply Forall2_update, complete_same. }
          lk. repeat split; auto.
          -- exists (pre ++ complete_state now output final s :: post)%list, []. split; [symmetry; apply app_nil_r|exact F].
          -- eapply records_ok_same; eauto.
          -- eapply records_ok_same; eauto.
          -- unfold has_name in *. now rewrite <- (Forall2_names _ _ F).
        * apply update_state_none_none in Eu. contradiction.
    - (* PCompletedSave *)
      destruct err as [m|]; [inversion H; subst; clear H; cbn; lk; repeat split; auto using evolves_refl; try apply RI; try discriminate|].
      destruct (sc_next cfg).
      + inversion H; subst; clear H; cbn; lk; repeat split; auto using evolves_refl; try apply RI.
        intros s0 E; inversion E; subst; auto.
      + destruct (match sc_end cfg with Some b => b | None => false end);
          inversion H; subst; clear H; cbn; lk; repeat split; auto using evolves_refl; try apply RI; try discriminate.
    - (* PFinish *)
      inversion H; subst; clear H; cbn; lk. repeat split; auto using evolves_refl; try apply RI.
    - (* PFinishSave *)
      destruct err as [m|]; inversion H; subst; clear H; cbn; lk; repeat split; auto using evolves_refl; try apply RI.
      + discriminate.
      + eauto.
    - (* PFinishEvent *)
      inversion H; subst; clear H; cbn. destruct TI as [TI1 TI2]. lk. repeat split; auto using evolves_refl; try apply RI.
    - (* PError *)
      destruct e as [k e].
      destruct k; inversion H; subst; clear H; cbn; lk; repeat split; auto using evolves_refl; try apply RI; try (intros r Hr; eapply find_retry; eauto).
    - (* PCheckAttempts *)
      destruct TI as [K R].
      destruct (extract_state (ei_state e) (ei_parent e) (we_states (c_exec T c))) as [s|] eqn:Ex.
      + assert (Hpn : ei_parent e = None).
        { destruct (ei_parent e); [|reflexivity]. rewrite extract_state_child in Ex by apply RI. discriminate. }
        rewrite Hpn in Ex. assert (Ha : es_attempt s = 1%Z) by (eapply RI; eauto).
        rewrite Ha in H. cbn in H.
        assert (C : forall r, retry = Some r -> (forall m, rt_max_attempts r = Some m -> (0 < m)%Z) ->
                  rule_of e r /\ (ei_parent e = None -> limit_allows r)).
        { intros r Hr Hm. split; [now apply R|]. intros _. unfold limit_allows.
          destruct (rt_max_attempts r) as [m|]; [|exact Logic.I]. specialize (Hm m eq_refl). lia. }
        destruct retry as [r|].
        * destruct (rt_max_attempts r) as [m|] eqn:Em.
          -- destruct (Z.leb_spec m 0); inversion H; subst; clear H; cbn; lk; (split; [auto|]); (split; [exact RI|]);
               (split; [|split; [exact Logic.I|auto]]); (split; [reflexivity|]); (split; [reflexivity|]);
               intros r' Hr'; [discriminate|]. intros _. split; [reflexivity|].
             inversion Hr'; subst. apply C; [reflexivity|]. intros. assert (m0 = m) by congruence. lia.
          -- inversion H; subst; clear H; cbn; lk; (split; [auto|]); (split; [exact RI|]);
               (split; [|split; [exact Logic.I|auto]]); (split; [reflexivity|]); (split; [reflexivity|]).
             intros r' Hr' _. split; [reflexivity|]. inversion Hr'; subst. apply C; [reflexivity|congruence].
        * inversion H; subst; clear H; cbn; lk; (split; [auto|]); (split; [exact RI|]);
               (split; [|split; [exact Logic.I|auto]]); (split; [reflexivity|]); (split; [reflexivity|]). discriminate.
      + assert (Hpn : ei_parent e <> None).
        { intros Hn. rewrite Hn in Ex. apply extract_state_has in K. destruct K as (s & K). congruence. }
        inversion H; subst; clear H; cbn; lk; repeat split; auto using evolves_refl; try apply RI; try contradiction.
    - (* PRecord *)
      set (exec := if can_continue then c_exec T c else fail_execution (error_detail name ename msg) (c_exec T c)) in *.
      assert (Es : we_states exec = we_states (c_exec T c)) by (unfold exec; now destruct can_continue).
      destruct parent as [pn|].
      + rewrite update_state_child in H by (rewrite Es; apply RI). inversion H; subst; clear H; cbn. rewrite Es. lk.
        repeat split; auto using evolves_refl; try apply RI.
      + destruct (update_state _ None _ _) as [[sts x]|] eqn:Eu.
        * apply update_state_none_some in Eu. destruct Eu as (pre & s & post & Es' & Hn & -> & -> & Hni).
          rewrite Es in Es'.
          assert (F : Forall2 same_record (we_states (c_exec T c))
                        (pre ++ fail_state now (error_detail name ename msg) s :: post)).
          { rewrite Es'. apply Forall2_update, fail_same. }
          assert (Ev : evolves (we_states (c_exec T c)) (pre ++ fail_state now (error_detail name ename msg) s :: post)).
          { exists (pre ++ fail_state now (error_detail name ename msg) s :: post)%list, [].
            split; [symmetry; apply app_nil_r|exact F]. }
          assert (FI : failed_in (with_states exec (pre ++ fail_state now (error_detail name ename msg) s :: post))
                         (fail_state now (error_detail name ename msg) s) can_continue).
          { split; [reflexivity|]. split; [cbn; eauto|]. split.
            - cbn. apply in_or_app. right. now left.
            - intros ->. reflexivity. }
          destruct persist; inversion H; subst; clear H; cbn; lk;
            (split; [exact Ev|]); (split; [eapply records_ok_same; eauto|]); auto.
        * inversion H; subst; clear H; cbn. rewrite Es. lk.
          repeat split; auto using evolves_refl; try apply RI.
    - (* PRecordSave *)
      inversion H; subst; clear H; cbn. destruct TI.
      lk. split; [apply evolves_refl|]. split; [exact RI|]. auto.
    - (* PRecordEvent *)
      destruct TI as [FI CO].
      destruct can_continue.
      + destruct k as [|e retry catch attempts exceeded inp]; cbn in CO; [discriminate|].
        destruct CO as (Hp & Hc & Hr). destruct retry as [r|]; [|discriminate].
        destruct exceeded; [discriminate|]. destruct (Hr r eq_refl eq_refl) as (-> & (cfg & rs & en & R1 & R2 & R3 & R4) & Hl).
        inversion H; subst; clear H; cbn.
        lk. split; [apply evolves_refl|]. split; [exact RI|].
        split; [exact Logic.I|]. split; [|constructor].
        split; [split; apply FI|]. split; [|exact Logic.I]. split; [reflexivity|].
        split; [eauto|]. rewrite Hp in R1. exists cfg, rs, r, en. auto 8.
      + inversion H; subst; clear H; cbn.
        lk. split; [apply evolves_refl|]. split; [exact RI|].
        split; [eauto 8|]. split; [|constructor]. split; [split; apply FI|exact Logic.I].
    - (* PRecordComplete *)
      destruct TI as (h & s & Hh & FI & CO).
      assert (G : good (FEvent (EvComplete exec)) (effects_of t (c_log T c))).
      { right. split; [now apply FI|]. exists h, s. split; [exact Hh|]. split; apply FI. }
      destruct k as [|e retry catch attempts exceeded inp]; cbn in CO.
      + inversion H; subst; clear H; cbn.
        lk. split; [apply evolves_refl|]. split; [exact RI|].
        split; [exact Logic.I|]. split; [|constructor]. split; [exact G|exact Logic.I].
      + destruct CO as (Hp & Hc & _). 
        assert (E : o = with_effects T (stay T c (PCatch T catch e inp)) [FEvent (EvComplete exec)]).
        { destruct retry; [destruct exceeded; [|discriminate]|]; inversion H; reflexivity. }
        subst o. cbn.
        lk. split; [apply evolves_refl|]. split; [exact RI|].
        split; [exact Logic.I|]. split; [|constructor]. split; [exact G|exact Logic.I].
    - (* PRetry *)
      inversion H; subst; clear H; cbn; lk. repeat split; auto using evolves_refl; try apply RI.
      intros s Hs. destruct (ei_parent e).
      + rewrite extract_state_child in Hs by apply RI. discriminate.
      + pose proof (extract_state_none _ _ _ Hs) as (pre & post & Es & Hn & _).
        unfold has_name. rewrite Es, map_app. apply in_or_app. right. now left.
    - (* PCatch *)
      destruct catch as [rules|].
      + destruct (List.find _ rules) as [rule|].
        * destruct (c_lock T c) eqn:EL; [discriminate|].
          destruct (prepare_input_from_catch inject rule e input) as [v|[k e']].
          -- inversion H; subst; clear H; cbn; lk. repeat split; auto using evolves_refl; try apply RI.
             intros s Hs. destruct (ei_parent e).
             ++ rewrite extract_state_child in Hs by apply RI. discriminate.
             ++ pose proof (extract_state_none _ _ _ Hs) as (pre & post & Es & Hn & _).
                unfold has_name. rewrite Es, map_app. apply in_or_app. right. now left.
          -- inversion H; subst; clear H; cbn; lk. repeat split; auto using evolves_refl; try apply RI.
        * inversion H; subst; clear H; cbn; lk. repeat split; auto using evolves_refl; try apply RI.
      + inversion H; subst; clear H; cbn; lk. repeat split; auto using evolves_refl; try apply RI.
  Qed.

  Lemma log_ok_app log t fs :
    log_ok log -> all_good (effects_of t log) fs -> log_ok (log ++ map (pair t) fs).
  Proof.
    revert log. induction fs as [|f fs IH]; intros log L G; cbn.
    - now rewrite app_nil_r.
    - cbn in G. destruct G as [G1 G2].
      replace (log ++ (t, f) :: map (pair t) fs)%list with ((log ++ [(t, f)]) ++ map (pair t) fs)%list
        by (now rewrite <- app_assoc).
      apply IH.
      + intros pre u g post E. destruct post as [|x post _] using rev_ind.
        * apply app_inj_tail in E. destruct E as [-> E]. inversion E; subst. exact G1.
        * rewrite app_comm_cons, app_assoc in E. apply app_inj_tail in E. destruct E as [E _].
          eapply L; eauto.
      + rewrite effects_of_app. change [(t, f)] with (map (pair t) [f]). rewrite effects_of_same. exact G2.
  Qed.

  Lemma inv_init initial : we_states initial = [] -> inv (sm_init T spec initial).
  Proof.
    intros H. split; cbn.
    - intros [|[|t]] th E; cbn in E; inversion E; subst; cbn; split; discriminate.
    - intros [|[|t]] th E; cbn in E; inversion E; subst; cbn; discriminate.
    - rewrite H. split; [constructor|]. discriminate.
    - discriminate.
    - intros t f [].
    - intros pre t f post E. destruct pre; discriminate.
  Qed.

  Lemma effects_of_new log t : (forall u f, In (u, f) log -> u < t) -> effects_of t log = [].
  Proof.
    intros H. unfold effects_of. induction log as [|[u f] log IH]; [reflexivity|]. cbn.
    destruct (Nat.eqb_spec u t).
    - subst. pose proof (H t f (or_introl eq_refl)). lia.
    - apply IH. intros v g Hv. apply (H v g). now right.
  Qed.

  Lemma inv_step c a c' : inv c -> SM_STEP c a = Some c' -> inv c'.
  Proof.
    intros I H. apply sm_step_inv in H. destruct H as (th & o & Hth & Hs & ->).
    set (t := a_thread a) in *.
    set (ret := match th_ret T th with Some r => Some r | None => o_ret T o end) in *.
    destruct (step_ok c t th _ _ _ o I Hth eq_refl Hs) as (Lk & Ev & Rk & Ti & Gd & Sp).
    assert (Hlt : t < length (c_threads T c)) by (apply nth_error_Some; congruence).
    assert (TC : forall u thu, nth_error (set_nth t {| th_pc := final_pc T ret (o_pc T o); th_ret := ret |}
                                 (c_threads T c) ++ o_spawn T o) u = Some thu ->
       (u = t /\ thu = {| th_pc := final_pc T ret (o_pc T o); th_ret := ret |})
       \/ (u <> t /\ u < length (c_threads T c) /\ nth_error (c_threads T c) u = Some thu)
       \/ (u >= length (c_threads T c) /\ In thu (o_spawn T o))).
    { intros u thu E. destruct (Nat.lt_ge_cases u (length (c_threads T c))) as [Hu|Hu].
      - rewrite nth_error_app1 in E by (now rewrite set_nth_length).
        destruct (Nat.eq_dec u t) as [->|Hne].
        + left. erewrite nth_set_nth_eq in E by eauto. inversion E; auto.
        + right; left. rewrite nth_set_nth_ne in E by assumption. auto.
      - right; right. rewrite nth_error_app2 in E by (now rewrite set_nth_length).
        split; [assumption|]. eapply nth_error_In; eauto. }
    pose proof (inv_lock c I t th Hth) as Lt.
    split; cbn [c_exec c_lock c_threads c_log].
    - (* lock *)
      intros u thu E. destruct (TC u thu E) as [[-> ->]|[(Hne & Hl & E')|(Hge & Hin)]]; cbn [th_pc].
      + rewrite holding_final. destruct Lk as [(Hh & ->)|[(Hh & Hh' & -> & _)|(Hh & Hh' & Hn & ->)]].
        * destruct (holding (o_pc T o)); split; auto; discriminate.
        * rewrite Hh'. rewrite <- Lt, Hh. tauto.
        * rewrite Hh'. tauto.
      + pose proof (inv_lock c I u thu E') as Lu.
        destruct Lk as [(Hh & ->)|[(Hh & Hh' & -> & _)|(Hh & Hh' & Hn & ->)]].
        * apply Lt in Hh. rewrite Hh in Lu. destruct (holding (o_pc T o)); [exact Lu|].
          split; [|discriminate]. intros Hu. apply Lu in Hu. congruence.
        * exact Lu.
        * rewrite Hn in Lu. rewrite Lu. split; [discriminate|congruence].
      + rewrite Forall_forall in Sp. specialize (Sp thu Hin).
        assert (holding (th_pc T thu) = false) as -> by (destruct (th_pc T thu); try contradiction; reflexivity).
        split; [discriminate|]. intros Hu. exfalso.
        destruct Lk as [(Hh & Ho)|[(Hh & Hh' & Ho & _)|(Hh & Hh' & Hn & Ho)]]; rewrite Ho in Hu.
        * destruct (holding (o_pc T o)); [|discriminate]. inversion Hu. lia.
        * apply (inv_holder c I) in Hu. lia.
        * inversion Hu. lia.
    - intros u thu E. destruct (TC u thu E) as [[-> ->]|[(Hne & Hl & E')|(Hge & Hin)]]; cbn [th_pc].
      + rewrite effects_of_app, effects_of_same. now apply t_inv_final.
      + rewrite effects_of_app, effects_of_other, app_nil_r by assumption.
        pose proof (inv_threads c I u thu E') as Tu.
        destruct (holding (th_pc T thu)) eqn:Hu; [|eapply t_inv_mono; eauto].
        apply (inv_lock c I u thu E') in Hu.
        assert (o_exec T o = c_exec T c) as ->; [|exact Tu].
        destruct Lk as [(Hh & _)|[(Hh & Hh' & _ & [Hn|Hn])|(Hh & Hh' & Hn & _)]]; try congruence.
        apply Lt in Hh. congruence.
      + rewrite Forall_forall in Sp. specialize (Sp thu Hin).
        destruct (th_pc T thu); try contradiction; cbn; [|exact Logic.I].
        destruct prev; [contradiction|discriminate].
    - exact Rk.
    - intros u Hu. rewrite app_length, set_nth_length.
      destruct Lk as [(Hh & Ho)|[(Hh & Hh' & Ho & _)|(Hh & Hh' & Hn & Ho)]]; rewrite Ho in Hu.
      + destruct (holding (o_pc T o)); [|discriminate]. inversion Hu. lia.
      + apply (inv_holder c I) in Hu. lia.
      + inversion Hu. lia.
    - intros u f Hin. rewrite app_length, set_nth_length. apply in_app_or in Hin. destruct Hin as [Hin|Hin].
      + apply (inv_tids c I) in Hin. lia.
      + apply in_map_iff in Hin. destruct Hin as (x & Hx & _). inversion Hx. lia.
    - apply log_ok_app; [apply (inv_log c I)|exact Gd].
  Qed.

  Lemma inv_run acts : forall c c', inv c -> RUN c acts = Some c' -> inv c'.
  Proof.
    induction acts as [|a acts IH]; cbn; intros c c' I H.
    - inversion H; subst; exact I.
    - destruct (sm_step _ _ _ _ _ _ _ c a) as [c1|] eqn:E; [|discriminate].
      eapply IH; [|exact H]. eapply inv_step; eauto.
  Qed.

  Lemma inv_reachable initial c : we_states initial = [] ->
    reachable render extract inject has_handler wait_time spec initial c -> inv c.
  Proof. intros H (acts & R). eapply inv_run; [|exact R]. now apply inv_init. Qed.
End Inv.
