(** Sequences of steps (C13). *)
From Verif Require Import Base Json WfTypes StateMachineModel StateMachineSpec StateMachineProofs.
Open Scope string_scope.

Lemma calls_app a b : calls (a ++ b) = (calls a ++ calls b)%list.
Proof. apply flat_map_app. Qed.
Lemma started_app a b : started (a ++ b) = (started a ++ started b)%list.
Proof. apply flat_map_app. Qed.
Lemma completions_app a b : completions (a ++ b) = (completions a ++ completions b)%list.
Proof. apply flat_map_app. Qed.
Lemma failures_app a b : failures (a ++ b) = (failures a ++ failures b)%list.
Proof. apply flat_map_app. Qed.
Lemma effects_app a b : effects (a ++ b) = (effects a ++ effects b)%list.
Proof. apply map_app. Qed.
Lemma effects_pair t fs : effects (map (pair t) fs) = fs.
Proof. unfold effects. rewrite map_map. cbn. apply map_id. Qed.

Section Seq.
  Context {T : Type}.
  Variable render : T -> json -> json + render_error.
  Variable extract : json -> string -> json + string.
  Variable inject : json -> string -> json -> json + string.
  Variable has_handler : string -> bool.
  Variable wait_time : wait_config -> json -> Z -> N + (bool * option string * string).
  Variable spec : workflow_spec T.
  Notation STEP := (step_pc T render extract inject has_handler wait_time spec).
  Notation SM_STEP := (sm_step T render extract inject has_handler wait_time spec).
  Notation RUN := (sm_run T render extract inject has_handler wait_time spec).
  Notation CHAIN := (chain render extract inject has_handler spec).

  Lemma chain_length n i outs cs f : CHAIN n i outs cs f ->
    forall i' outs' cs' f', CHAIN n i' outs' cs' f' -> length cs = length cs'.
  Proof.
    induction 1 as [n i cfg x p o f H1 H2 H3 H4 H5 H6 H7 H8|n i cfg x p o v nx outs cs f H1 H2 H3 H4 H5 H6 H7 H8 IH].
    - intros i' outs' cs' f' C. inversion C; subst; [reflexivity|]. congruence.
    - intros i' outs' cs' f' C. inversion C; subst; [congruence|].
      cbn. f_equal. assert (nx = next) by congruence. subst. eapply IH; eauto.
  Qed.
  Lemma chain_suffix n i outs cs f : CHAIN n i outs cs f ->
    forall m, In m (map fst cs) -> exists i' outs' cs' f', CHAIN m i' outs' cs' f' /\ length cs' <= length cs.
  Proof.
    induction 1 as [n i cfg x p o f H1 H2 H3 H4 H5 H6 H7 H8|n i cfg x p o v nx outs cs f H1 H2 H3 H4 H5 H6 H7 H8 IH].
    - cbn. intros m [<-|[]]. do 4 eexists. split; [eapply chain_end; eauto|]. reflexivity.
    - cbn. intros m [<-|Hm].
      + do 4 eexists. split; [eapply chain_next; eauto|]. reflexivity.
      + destruct (IH m Hm) as (i' & o' & c' & f' & C & L). exists i', o', c', f'. split; [exact C|lia].
  Qed.
  Lemma chain_nodup n i outs cs f : CHAIN n i outs cs f -> NoDup (map fst cs) /\ length outs = length cs
    /\ exists p r, cs = (n, p) :: r.
  Proof.
    induction 1 as [n i cfg x p o f H1 H2 H3 H4 H5 H6 H7 H8|n i cfg x p o v nx outs cs f H1 H2 H3 H4 H5 H6 H7 H8 IH].
    - cbn. repeat split; [|eauto]. repeat constructor. intros [].
    - destruct IH as (N & L & _). cbn. repeat split; [|lia|eauto]. constructor; [|exact N].
      intros Hin. destruct (chain_suffix _ _ _ _ _ H8 n Hin) as (i' & o' & c' & f' & C & Hl).
      pose proof (chain_length _ _ _ _ _ C i ((o, v) :: outs) ((n, p) :: cs) f) as E.
      cbn in E. rewrite E in Hl; [lia|]. eapply chain_next; eauto.
  Qed.

  (** What is left to do at each position. *)
  Definition tail (final : json) (cfg : state_config T) (v : json) (outs : list (json * json)) (cs : list (string * json)) : Prop :=
    (sc_next cfg = None /\ sc_end cfg = Some true /\ outs = [] /\ cs = [] /\ v = final)
    \/ (exists next, sc_next cfg = Some next /\ CHAIN next v outs cs final).
  Definition at_state (final : json) (st : exec_state) (cfg : state_config T) (input : json)
      (outs : list (json * json)) (cs : list (string * json)) : Prop :=
    lookup (es_name st) (ws_states spec) = Some cfg /\ sc_type cfg = ExecuteStep
    /\ has_handler (es_name st) = true /\
    exists p o v outs' cs', outs = (o, v) :: outs' /\ cs = (es_name st, p) :: cs'
      /\ payload_is render (sc_payload_template cfg) input p
      /\ passes_on extract inject cfg input o v /\ tail final cfg v outs' cs'.

  (** [rem p k outs cs ns]: at [p] there are [k] steps, the answers [outs], the
      calls [cs] and the announcements [ns] left. *)
  Definition rem (final : json) (p : pc T) (k : nat) (outs : list (json * json)) (cs : list (string * json)) (ns : list string) : Prop :=
    let n := 9 * length cs + 3 in
    match p with
    | PStart _ nm i _ None => CHAIN nm i outs cs final /\ k = n /\ ns = map fst cs
    | PTransition _ st cfg i _ None => at_state final st cfg i outs cs /\ k + 1 = n /\ ns = map fst cs
    | PTransitionSave _ st cfg i _ None => at_state final st cfg i outs cs /\ k + 2 = n /\ ns = map fst cs
    | PTransitionEvent _ st cfg i _ None => at_state final st cfg i outs cs /\ k + 3 = n /\ ns = map fst cs
    | PBody _ st cfg i None => at_state final st cfg i outs cs /\ k + 4 = n /\ ns = map fst (List.tl cs)
    | PHandler _ st cfg i None => k = n + 4 /\ ns = map fst cs /\
        exists o v outs', outs = (o, v) :: outs' /\ passes_on extract inject cfg i o v /\ tail final cfg v outs' cs
    | PSuccess _ o st cfg i None => k = n + 3 /\ ns = map fst cs /\
        exists v, passes_on extract inject cfg i o v /\ tail final cfg v outs cs
    | PCompleted _ o v st cfg i None => k = n + 2 /\ ns = map fst cs /\ tail final cfg v outs cs
    | PCompletedSave _ v st cfg i None => k = n + 1 /\ ns = map fst cs /\ tail final cfg v outs cs
    | PFinish _ v _ => outs = [] /\ cs = [] /\ ns = [] /\ k = 3 /\ v = final
    | PFinishSave _ v _ => outs = [] /\ cs = [] /\ ns = [] /\ k = 2 /\ v = final
    | PFinishEvent _ v => outs = [] /\ cs = [] /\ ns = [] /\ k = 1 /\ v = final
    | PDone _ _ => outs = [] /\ cs = [] /\ ns = [] /\ k = 0
    | _ => False
    end.

  (** The records, from the calls and answers so far: those of the finished
      states, and the current one. *)
  Definition records (p : pc T) (sts : list exec_state) (Cs : list (string * json)) (As : list (json * json)) : Prop :=
    match p with
    | PTransitionSave _ st _ _ _ _ | PTransitionEvent _ st _ _ _ _ | PBody _ st _ _ _ =>
        exists l, sts = (l ++ [st])%list /\ length Cs = length As /\ Forall2 finished l (combine Cs As)
    | PHandler _ st _ _ _ =>
        exists l C0 p, sts = (l ++ [st])%list /\ length C0 = length As /\ Forall2 finished l (combine C0 As)
          /\ Cs = (C0 ++ [(es_name st, p)])%list
    | PSuccess _ o st cfg i _ =>
        exists l C0 p A0 v, sts = (l ++ [st])%list /\ length C0 = length A0 /\ Forall2 finished l (combine C0 A0)
          /\ Cs = (C0 ++ [(es_name st, p)])%list /\ As = (A0 ++ [(o, v)])%list /\ passes_on extract inject cfg i o v
    | PCompleted _ o v st _ _ _ =>
        exists l C0 p A0, sts = (l ++ [st])%list /\ length C0 = length A0 /\ Forall2 finished l (combine C0 A0)
          /\ Cs = (C0 ++ [(es_name st, p)])%list /\ As = (A0 ++ [(o, v)])%list
    | _ => length Cs = length As /\ Forall2 finished sts (combine Cs As)
    end.

  Definition ended (p : pc T) (exec : wf_execution) (fs : list effect) : Prop :=
    match p with
    | PFinishEvent _ _ => completions fs = [] /\ we_status exec = Succeeded /\
        exists f0, fs = (f0 ++ [FSave (payload_of exec) true])%list
    | PDone _ _ => we_status exec = Succeeded /\
        exists f0, fs = (f0 ++ [FSave (payload_of exec) true; FEvent (EvComplete exec)])%list /\ completions f0 = []
    | PFinishSave _ _ _ => completions fs = [] /\ we_status exec = Succeeded
    | _ => completions fs = []
    end.

  Record seq_inv (outs : list (json * json)) (cs : list (string * json)) (final : json) (c : config T)
      (acts : list action) : Prop := {
    sq_inv : inv render extract has_handler spec c;
    sq : exists th k outs' cs' ns' As Cs,
      c_threads T c = [th] /\ rem final (th_pc T th) k outs' cs' ns'
      /\ (Cs ++ cs')%list = cs /\ (As ++ outs')%list = outs
      /\ calls (effects (c_log T c)) = Cs
      /\ handler_answers acts = answered As
      /\ (started (effects (c_log T c)) ++ ns')%list = map fst cs
      /\ failures (effects (c_log T c)) = []
      /\ records (th_pc T th) (we_states (c_exec T c)) Cs As
      /\ ended (th_pc T th) (c_exec T c) (effects (c_log T c))
      /\ k + length acts = 9 * length cs + 3
  }.

  Lemma combine_snoc {A B} (a : list A) (b : list B) x y :
    length a = length b -> combine (a ++ [x]) (b ++ [y]) = (combine a b ++ [(x, y)])%list.
  Proof. revert b. induction a as [|z a IH]; intros [|w b] L; cbn in *; try discriminate; [reflexivity|]. f_equal. apply IH. lia. Qed.

  Lemma finished_names l C A : length C = length A -> Forall2 finished l (combine C A) -> map es_name l = map fst C.
  Proof.
    revert C A. induction l as [|s l IH]; intros [|c C] [|a A] L F; cbn in *; try discriminate; inversion F; subst; auto.
    f_equal; [apply H2|]. eapply IH; [|eauto]. lia.
  Qed.

  Lemma lock_free c th : inv render extract has_handler spec c -> c_threads T c = [th] ->
    holding (th_pc T th) = false -> c_lock T c = None.
  Proof.
    intros I E H. destruct (c_lock T c) as [t|] eqn:L; [|reflexivity].
    pose proof (inv_holder _ _ _ _ _ I t L) as Ht. rewrite E in Ht. cbn in Ht. assert (t = 0) by lia. subst.
    assert (N : nth_error (c_threads T c) 0 = Some th) by now rewrite E.
    apply (inv_lock _ _ _ _ _ I 0 th N) in L. congruence.
  Qed.

  Lemma handler_answers_app a b : handler_answers (a ++ b) = (handler_answers a ++ handler_answers b)%list.
  Proof. apply flat_map_app. Qed.

  Lemma answered_app a b : answered (a ++ b) = (answered a ++ answered b)%list.
  Proof. apply map_app. Qed.

  Lemma prefix_cons {A} (l : list A) x As outs' (f : list A) : f = (As ++ outs')%list ->
    is_prefix (As ++ [x]) f -> exists r, outs' = x :: r.
  Proof.
    intros -> (r & E). rewrite <- app_assoc in E. apply app_inv_head in E. exists r. exact E.
  Qed.

  Lemma run_step c a c' : c_threads T c <> [] -> SM_STEP c a = Some c' ->
    forall th, c_threads T c = [th] -> a_thread a = 0.
  Proof.
    intros _ H th E. apply sm_step_inv in H. destruct H as (th' & o & Hth & _). rewrite E in Hth.
    destruct (a_thread a) as [|[|n]]; cbn in Hth; try discriminate; reflexivity.
  Qed.

  Definition answer_list (a : answer) : list (json + string * string) :=
    match a with AHandler r => [r] | _ => [] end.

  Lemma output_ok name parent cfg i o v : passes_on extract inject cfg i o v ->
    prepare_state_output T extract inject name parent cfg i o = inl v.
  Proof.
    unfold passes_on, prepare_state_output, through. destruct (sc_result_path cfg); [intros ->; reflexivity|].
    destruct (sc_output_path cfg); [intros ->; reflexivity|intros ->; reflexivity].
  Qed.
  Lemma input_ok name parent cfg i v : through extract (sc_input_path cfg) i v ->
    prepare_state_input T extract name parent cfg i = inl v.
  Proof. unfold through, prepare_state_input. destruct (sc_input_path cfg); intros ->; reflexivity. Qed.

  Ltac sp := repeat match goal with |- _ /\ _ => split end.
  (** One step from a position on the chain. *)
  Lemma seq_local final c p k outs' cs' ns' Cs As now a o :
    c_lock T c = (if holding p then Some 0 else None) ->
    NoDup (map fst (Cs ++ cs')) ->
    rem final p k outs' cs' ns' -> records p (we_states (c_exec T c)) Cs As ->
    ended p (c_exec T c) (effects (c_log T c)) ->
    STEP c 0 p now a = Some o ->
    (forall m, a <> ASaved (Some m)) ->
    is_prefix (answer_list a) (answered outs') ->
    exists k1 outs1 cs1 ns1 newA,
      o_spawn T o = [] /\ rem final (o_pc T o) k1 outs1 cs1 ns1 /\ k = S k1
      /\ cs' = (calls (o_effects T o) ++ cs1)%list /\ outs' = (newA ++ outs1)%list
      /\ answer_list a = answered newA /\ ns' = (started (o_effects T o) ++ ns1)%list
      /\ failures (o_effects T o) = []
      /\ records (o_pc T o) (we_states (o_exec T o)) (Cs ++ calls (o_effects T o)) (As ++ newA)
      /\ ended (o_pc T o) (o_exec T o) (effects (c_log T c) ++ o_effects T o).
  Proof.
    intros L ND R Rec En H Hok Hpre.
    destruct p; try contradiction; try (destruct parent; [contradiction|]); destruct a; cbn in H, L; try discriminate H;
      cbn [rem] in R; cbn [records] in Rec; cbn [ended] in En; try rewrite L in H.
    - (* PStart *)
      destruct R as (C & -> & ->).
      assert (exists cfg v, lookup name (ws_states spec) = Some cfg /\ through extract (sc_input_path cfg) input v
              /\ forall st, es_name st = name -> at_state final st cfg input outs' cs') as (cfg & v & Hc & Hv & Hat).
      { inversion C; subst; exists cfg; eexists; (split; [eassumption|]); (split; [eassumption|]); intros st Est; unfold at_state; rewrite Est;
          (split; [assumption|]); (split; [assumption|]); (split; [assumption|]).
        - exists p, o0, final, [], []. sp; auto. left; auto.
        - exists p, o0, v, outs, cs. sp; auto. right; eauto. }
      rewrite Hc in H. erewrite input_ok in H by exact Hv. inversion H; subst; clear H. cbn.
      exists (9 * length cs' + 2), outs', cs', (map fst cs'), []. cbn. rewrite !app_nil_r.
      sp; auto; try lia; try (now apply Hat); try reflexivity; apply Rec.
    - (* PTransition *)
      destruct R as (C & Hk & ->). inversion H; subst; clear H. cbn.
      exists (9 * length cs' + 1), outs', cs', (map fst cs'), []. cbn. rewrite !app_nil_r.
      sp; auto; try apply C; try lia. exists (we_states (c_exec T c)). auto.
    - (* PTransitionSave *)
      destruct err as [m|]; [exfalso; eapply Hok; reflexivity|].
      destruct R as (C & Hk & ->). inversion H; subst; clear H. cbn.
      exists (9 * length cs'), outs', cs', (map fst cs'), []. cbn. rewrite !app_nil_r.
      sp; auto; try apply C; try lia. rewrite completions_app, En. reflexivity.
    - (* PTransitionEvent *)
      destruct R as (C & Hk & ->). inversion H; subst; clear H. cbn.
      pose proof C as (_ & _ & _ & p & o & v & outs1 & cs1 & -> & -> & _).
      exists (9 * length cs1 + 8), ((o, v) :: outs1), ((es_name st, p) :: cs1), (map fst cs1), []. cbn in *. rewrite !app_nil_r.
      sp; auto; try apply C; try lia. rewrite completions_app, En. reflexivity.
    - (* PBody *)
      destruct R as ((C1 & C2 & C3 & p & o0 & v & outs1 & cs1 & -> & -> & C4 & C5 & C6) & Hk & ->).
      rewrite C2, C3 in H.
      assert (o = with_effects T (stay T c (PHandler T st cfg input None)) [FCall (es_name st) p]) as ->.
      { unfold payload_is in C4. destruct (sc_payload_template cfg).
        - rewrite C4 in H. inversion H; reflexivity.
        - subst. inversion H; reflexivity. }
      exists (9 * length cs1 + 7), ((o0, v) :: outs1), cs1, (map fst cs1), []. cbn in *. rewrite !app_nil_r.
      destruct Rec as (l & E1 & E2 & E3).
      sp; auto; try lia.
      + eauto 8.
      + exists l, Cs, p. auto.
      + rewrite completions_app, En. reflexivity.
    - (* PHandler *)
      destruct R as (Hk & -> & o0 & v & outs1 & -> & C5 & C6). cbn in Hpre.
      destruct Hpre as (rr & Hpre). cbn in Hpre. inversion Hpre; subst r. inversion H; subst; clear H. cbn.
      exists (9 * length cs' + 6), outs1, cs', (map fst cs'), [(o0, v)]. cbn. rewrite !app_nil_r.
      destruct Rec as (l & C0 & p & E1 & E2 & E3 & E4).
      sp; auto; try lia; eauto 12.
    - (* PSuccess *)
      destruct R as (Hk & -> & v & C5 & C6). destruct Rec as (l & C0 & p & A0 & v' & E1 & E2 & E3 & E4 & E5 & E6).
      pose proof (output_ok "" None _ _ _ _ C5) as O1. pose proof (output_ok "" None _ _ _ _ E6) as O2.
      assert (v' = v) by congruence. subst v'. clear O1 O2.
      erewrite output_ok in H by exact C5. inversion H; subst; clear H. cbn.
      exists (9 * length cs' + 5), outs', cs', (map fst cs'), []. cbn. rewrite !app_nil_r.
      sp; auto; try lia. eauto 12.
    - (* PCompleted *)
      destruct R as (Hk & -> & C6). destruct Rec as (l & C0 & p & A0 & E1 & E2 & E3 & -> & ->).
      assert (Hni : ~ In (es_name st) (map es_name l)).
      { rewrite (finished_names _ _ _ E2 E3). rewrite <- app_assoc in ND. cbn in ND. rewrite map_app in ND. cbn in ND.
        apply NoDup_remove_2 in ND. intros X. apply ND. apply in_or_app. now left. }
      destruct (update_state _ None _ _) as [[sts x]|] eqn:Eu.
      2: { apply update_state_none_none in Eu. exfalso. apply Eu. unfold has_name. rewrite E1, map_app. apply in_or_app. right. now left. }
      apply update_state_none_some in Eu. destruct Eu as (pre & s & post & Es & Hn & -> & _ & Hni').
      assert (pre = l /\ s = st /\ post = []) as (-> & -> & ->).
      { rewrite E1 in Es. clear - Es Hni Hni' Hn. revert pre Es Hni'. induction l as [|x l IH]; intros [|y pre] Es Hni'; cbn in Es.
        - inversion Es; auto.
        - inversion Es; subst. exfalso. apply Hni'. cbn. left. reflexivity.
        - inversion Es; subst. exfalso. apply Hni. cbn. left. now rewrite Hn.
        - inversion Es; subst. destruct (IH) with (pre := pre) as (-> & -> & ->); auto.
          + intros X. apply Hni. now right.
          + intros X. apply Hni'. now right. }
      inversion H; subst; clear H. cbn.
      exists (9 * length cs' + 4), outs', cs', (map fst cs'), []. cbn. rewrite !app_nil_r.
      sp; auto; try lia.
      + rewrite !app_length. cbn. lia.
      + rewrite combine_snoc by assumption. apply Forall2_app; [assumption|]. constructor; [|constructor]. now repeat split.
    - (* PCompletedSave *)
      destruct err as [m|]; [exfalso; eapply Hok; reflexivity|].
      destruct R as (Hk & -> & C6). destruct Rec as [E1 E2].
      destruct C6 as [(N & E & -> & -> & ->)|(next & N & C)]; rewrite N in H.
      + rewrite E in H. inversion H; subst; clear H. cbn.
        exists 3, [], [], [], []. cbn. rewrite !app_nil_r. sp; auto; try (cbn in Hk; lia).
        rewrite completions_app, En. reflexivity.
      + inversion H; subst; clear H. cbn.
        exists (9 * length cs' + 3), outs', cs', (map fst cs'), []. cbn. rewrite !app_nil_r. sp; auto; try lia.
        rewrite completions_app, En. reflexivity.
    - (* PFinish *)
      destruct R as (-> & -> & -> & -> & ->). inversion H; subst; clear H. cbn.
      exists 2, [], [], [], []. cbn. rewrite !app_nil_r. sp; auto; apply Rec.
    - (* PFinishSave *)
      destruct err as [m|]; [exfalso; eapply Hok; reflexivity|].
      destruct R as (-> & -> & -> & -> & ->). destruct En as [En1 En2]. inversion H; subst; clear H. cbn.
      exists 1, [], [], [], []. cbn. rewrite !app_nil_r. sp; auto; try apply Rec; eauto.
      rewrite completions_app, En1. reflexivity.
    - (* PFinishEvent *)
      destruct R as (-> & -> & -> & -> & ->). destruct En as (En1 & En2 & f0 & En3). inversion H; subst; clear H. cbn.
      exists 0, [], [], [], []. cbn. rewrite !app_nil_r. sp; auto; try apply Rec.
      exists f0. split; [now rewrite En3, <- app_assoc|]. rewrite En3, completions_app in En1.
      apply app_eq_nil in En1. apply En1.
  Qed.

  Lemma rem_done final ret p k o c n : rem final p k o c n -> rem final (final_pc T ret p) k o c n.
  Proof. destruct p, ret; auto. Qed.
  Lemma records_done ret p s C A : records p s C A -> records (final_pc T ret p) s C A.
  Proof. destruct p, ret; auto. Qed.
  Lemma ended_done ret p e f : ended p e f -> ended (final_pc T ret p) e f.
  Proof. destruct p, ret; auto. Qed.

  Lemma lock_is c th : inv render extract has_handler spec c -> c_threads T c = [th] ->
    c_lock T c = if holding (th_pc T th) then Some 0 else None.
  Proof.
    intros I E. destruct (holding (th_pc T th)) eqn:H.
    - assert (N : nth_error (c_threads T c) 0 = Some th) by now rewrite E.
      now apply (inv_lock _ _ _ _ _ I 0 th N).
    - eapply lock_free; eauto.
  Qed.

  Lemma seq_step outs cs final c acts a c' :
    NoDup (map fst cs) ->
    seq_inv outs cs final c acts -> SM_STEP c a = Some c' ->
    (forall m, a_answer a <> ASaved (Some m)) ->
    is_prefix (handler_answers (acts ++ [a])) (answered outs) ->
    seq_inv outs cs final c' (acts ++ [a]).
  Proof.
    intros ND [I (th & k & outs' & cs' & ns' & As & Cs & Eth & R & EC & EA & Ecalls & Eans & Est & Efl & Rec & En & Ek)] H Hok Hpre.
    split; [eapply inv_step; eauto|].
    assert (Ea : a_thread a = 0) by (eapply run_step; eauto; rewrite Eth; discriminate).
    apply sm_step_inv in H. destruct H as (th' & o & Hth & Hs & ->). rewrite Ea in *.
    rewrite Eth in Hth. cbn in Hth. inversion Hth; subst th'. clear Hth.
    assert (HA : handler_answers (acts ++ [a]) = (answered As ++ answer_list (a_answer a))%list).
    { rewrite handler_answers_app, Eans. f_equal. unfold handler_answers, answer_list. cbn. apply app_nil_r. }
    destruct (seq_local final c (th_pc T th) k outs' cs' ns' Cs As (a_now a) (a_answer a) o)
      as (k1 & outs1 & cs1 & ns1 & newA & B1 & B2 & B3 & B4 & B5 & B6 & B7 & B8 & B9 & B10); auto.
    - eapply lock_is; eauto.
    - now rewrite EC.
    - rewrite HA in Hpre. destruct Hpre as (r & Hr). rewrite <- EA, answered_app, <- app_assoc in Hr.
      apply app_inv_head in Hr. exists r. exact Hr.
    - cbn [c_threads c_log c_exec]. rewrite Eth. cbn [set_nth].
      do 2 eexists. exists outs1, cs1, ns1, (As ++ newA)%list, (Cs ++ calls (o_effects T o))%list.
      rewrite B1. cbn [app].
      split; [reflexivity|]. cbn [th_pc]. rewrite !effects_app, effects_pair, calls_app, started_app, failures_app.
      split; [apply rem_done; exact B2|].
      split; [now rewrite <- app_assoc, <- B4|].
      split; [now rewrite <- app_assoc, <- B5|].
      split; [now rewrite Ecalls|].
      split; [rewrite HA, answered_app, B6; reflexivity|].
      split; [rewrite <- app_assoc, <- B7; exact Est|].
      split; [now rewrite Efl, B8|].
      split; [apply records_done; exact B9|].
      split; [apply ended_done; exact B10|].
      rewrite app_length. cbn [length]. lia.
  Qed.

  Lemma seq_run outs cs final acts2 : NoDup (map fst cs) -> forall c acts1 c',
    seq_inv outs cs final c acts1 -> RUN c acts2 = Some c' ->
    saves_succeed (acts1 ++ acts2) -> is_prefix (handler_answers (acts1 ++ acts2)) (answered outs) ->
    seq_inv outs cs final c' (acts1 ++ acts2).
  Proof.
    intros ND. induction acts2 as [|a acts2 IH]; intros c acts1 c' S H HS HP; cbn in H.
    - inversion H; subst. now rewrite app_nil_r.
    - destruct (SM_STEP c a) as [c1|] eqn:E; [|discriminate].
      replace (acts1 ++ a :: acts2)%list with ((acts1 ++ [a]) ++ acts2)%list in * by (now rewrite <- app_assoc).
      eapply IH; eauto. eapply seq_step; eauto.
      + unfold saves_succeed in HS. rewrite Forall_forall in HS. apply (HS a). apply in_or_app. left. apply in_or_app. right. now left.
      + rewrite handler_answers_app in HP. destruct HP as (r & HP). exists (handler_answers acts2 ++ r)%list.
        rewrite HP. now rewrite <- app_assoc.
  Qed.

  Lemma seq_progress outs cs final c acts :
    NoDup (map fst cs) ->
    seq_inv outs cs final c acts -> length acts < 9 * length cs + 3 ->
    exists a c', SM_STEP c a = Some c' /\ (forall m, a_answer a <> ASaved (Some m))
      /\ is_prefix (handler_answers (acts ++ [a])) (answered outs).
  Proof.
    intros ND [I (th & k & outs' & cs' & ns' & As & Cs & Eth & R & EC & EA & Ecalls & Eans & Est & Efl & Rec & En & Ek)] Hlt.
    assert (exists ans o, STEP c 0 (th_pc T th) 0 ans = Some o /\ (forall m, ans <> ASaved (Some m))
              /\ is_prefix (answer_list ans) (answered outs')) as (ans & o & Hs & Hok & Hp).
    { pose proof (lock_is c th I Eth) as L. destruct (th_pc T th); try contradiction;
        try (destruct parent; [contradiction|]); cbn in R, L.
      - exists ANothing. eexists. split; [reflexivity|]. split; [discriminate|]. now exists (answered outs').
      - exists ANothing. eexists. cbn. rewrite L. split; [reflexivity|]. split; [discriminate|]. now exists (answered outs').
      - exists (ASaved None). eexists. split; [reflexivity|]. split; [discriminate|]. now exists (answered outs').
      - exists ANothing. eexists. split; [reflexivity|]. split; [discriminate|]. now exists (answered outs').
      - exists ANothing. eexists. split; [reflexivity|]. split; [discriminate|]. now exists (answered outs').
      - destruct R as (_ & _ & o0 & v & outs1 & -> & _).
        exists (AHandler (inl o0)). eexists. split; [reflexivity|]. split; [discriminate|]. now exists (answered outs1).
      - exists ANothing. eexists. split; [reflexivity|]. split; [discriminate|]. now exists (answered outs').
      - exists ANothing. eexists. cbn. rewrite L. split; [reflexivity|]. split; [discriminate|]. now exists (answered outs').
      - exists (ASaved None). eexists. split; [reflexivity|]. split; [discriminate|]. now exists (answered outs').
      - exists ANothing. eexists. cbn. rewrite L. split; [reflexivity|]. split; [discriminate|]. now exists (answered outs').
      - exists (ASaved None). eexists. split; [reflexivity|]. split; [discriminate|]. now exists (answered outs').
      - exists ANothing. eexists. split; [reflexivity|]. split; [discriminate|]. now exists (answered outs').
      - lia. }
    exists {| a_thread := 0; a_now := 0%Z; a_answer := ans |}.
    eexists. split; [unfold sm_step; cbn [a_thread a_now a_answer]; rewrite Eth; cbn [nth_error]; rewrite Hs; reflexivity|].
    split; [exact Hok|]. rewrite handler_answers_app, Eans. unfold handler_answers. cbn [flat_map a_answer]. rewrite app_nil_r.
    fold (answer_list ans). destruct Hp as (r & Hr). exists r. rewrite <- EA, answered_app, Hr. now rewrite <- app_assoc.
  Qed.

  Lemma sequence initial acts c outs cs final :
    we_states initial = [] -> CHAIN (ws_start_at spec) (we_input initial) outs cs final ->
    RUN (sm_init T spec initial) acts = Some c ->
    saves_succeed acts -> is_prefix (handler_answers acts) (answered outs) ->
    let fs := effects (c_log T c) in
    is_prefix (calls fs) cs /\ is_prefix (started fs) (map fst cs) /\ failures fs = [] /\
    (length acts < 9 * length cs + 3 /\
       (exists a c', SM_STEP c a = Some c' /\ saves_succeed [a]
          /\ is_prefix (handler_answers (acts ++ [a])) (answered outs))
     \/ length acts = 9 * length cs + 3 /\ calls fs = cs /\ started fs = map fst cs /\
        exists f0 e, fs = (f0 ++ [FSave (payload_of e) true; FEvent (EvComplete e)])%list
          /\ completions f0 = [] /\ we_status e = Succeeded
          /\ Forall2 finished (we_states e) (combine cs outs)).
  Proof.
    intros Hi C H HS HP fs.
    destruct (chain_nodup _ _ _ _ _ C) as (ND & Ho & p & r & Ecs).
    assert (S0 : seq_inv outs cs final (sm_init T spec initial) []).
    { split; [now apply inv_init|]. cbn.
      do 2 eexists. exists outs, cs, (map fst cs), [], [].
      split; [reflexivity|]. cbn. split; [split; [exact C|split; reflexivity]|].
      repeat split; auto. rewrite Hi. constructor. }
    pose proof (seq_run outs cs final acts ND _ [] c S0 H HS HP) as S. cbn in S.
    pose proof S as [I (th & k & outs' & cs' & ns' & As & Cs & Eth & R & EC & EA & Ecalls & Eans & Est & Efl & Rec & En & Ek)].
    fold fs in Ecalls, Est, Efl, En.
    split; [exists cs'; now rewrite Ecalls|]. split; [exists ns'; now rewrite Est|]. split; [exact Efl|].
    destruct k as [|k].
    - right. destruct (th_pc T th); try (destruct parent; try contradiction); cbn in R; try contradiction; try lia;
        try (exfalso; destruct R as ((_ & _ & _ & p1 & o1 & v1 & x1 & y1 & _ & -> & _) & HH & _); cbn in HH; lia).
      destruct R as (-> & -> & -> & _). rewrite app_nil_r in *. subst. cbn in Rec, En.
      split; [lia|]. split; [exact Ecalls|]. split; [exact Est|].
      destruct En as (E1 & f0 & E2 & E3). exists f0, (c_exec T c). repeat split; auto. apply Rec.
    - left. split; [lia|]. destruct (seq_progress outs cs final c acts ND S) as (a & c' & P1 & P2 & P3); [lia|].
      exists a, c'. split; [exact P1|]. split; [|exact P3]. constructor; [exact P2|constructor].
  Qed.
End Seq.
