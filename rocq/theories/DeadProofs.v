(** Lemmas for C150. *)
From Verif Require Import Base AckModel AckSpec AckProofs ClusterModel ClusterSpec ClusterTrans ClusterNode ClusterCalls ClusterSafety ClusterDeliver DeadSpec.
Open Scope string_scope.
Local Open Scope list_scope.

(** ** Losses the checker has decided on and not yet carried out *)
Definition lost_of (a : action) : list string := match a with ActLost id _ => [id] | _ => [] end.
Definition lost_ids (w : worker) : list string :=
  match w_ticker w with
  | TSend l => flat_map lost_of l
  | TForget id l => id :: flat_map lost_of l
  | _ => []
  end.
Definition many (cf : ack_config) (m : smap entry) (id : string) : Prop :=
  exists e, lookup id m = Some e /\ (cf_max cf <= en_attempts e)%N.

Lemma decide_lost cf now id e x : In x (flat_map lost_of (decide cf now (id, e))) -> x = id /\ (cf_max cf <= en_attempts e)%N.
Proof.
  cbn. destruct (en_status e); cbn; try tauto. destruct (en_last e); cbn; try tauto.
  destruct (_ <? _)%N; cbn; try tauto. destruct (N.leb_spec (cf_max cf) (en_attempts e)); cbn; intuition.
Qed.
Lemma decide_lost_nodup cf now kv : NoDup (flat_map lost_of (decide cf now kv)).
Proof.
  destruct kv as [id e]. cbn. destruct (en_status e); cbn; try constructor. destruct (en_last e); cbn; try constructor.
  destruct (_ <? _)%N; cbn; try constructor. destruct (cf_max cf <=? en_attempts e)%N; cbn; repeat constructor; intros [].
Qed.
Lemma scan_lost cf now m x : In x (flat_map lost_of (flat_map (decide cf now) m)) ->
  exists e, In (x, e) m /\ (cf_max cf <= en_attempts e)%N.
Proof.
  induction m as [|[id e] m IH]; [intros []|]. cbn [flat_map]. rewrite flat_map_app, in_app_iff. intros [H|H].
  - apply decide_lost in H. destruct H as [-> H]. exists e. split; [now left|exact H].
  - destruct (IH H) as (e' & Hi & Ha). exists e'. split; [now right|exact Ha].
Qed.
Lemma scan_lost_nodup cf now m : NoDup (keys m) -> NoDup (flat_map lost_of (flat_map (decide cf now) m)).
Proof.
  induction m as [|[id e] m IH]; [constructor|]. intros H. inversion H as [|? ? Hn Hd]; subst.
  cbn [flat_map]. rewrite flat_map_app.
  assert (G : forall a b : list string, NoDup a -> NoDup b -> (forall x, In x a -> ~ In x b) -> NoDup (a ++ b)).
  { induction a as [|y a IHa]; intros b Ha Hb D; [exact Hb|]. inversion Ha; subst. cbn. constructor.
    - rewrite in_app_iff. intros [X|X]; [auto|]. apply (D y); [now left|exact X].
    - apply IHa; auto. intros x Hx. apply D. now right. }
  apply G; [apply decide_lost_nodup|now apply IH|].
  intros x Hx Hy. apply decide_lost in Hx. destruct Hx as [-> _]. apply scan_lost in Hy. destruct Hy as (e' & Hi & _).
  apply Hn. change id with (fst (id, e')). now apply in_map.
Qed.

Definition lost_inv (cf : ack_config) (w : worker) : Prop :=
  NoDup (lost_ids w) /\ forall id, In id (lost_ids w) -> many cf (w_acks w) id.

Lemma many_record cf m id st now x : many cf m x -> many cf (record_ack m id st now) x.
Proof.
  intros (e & He & Ha). unfold many, record_ack. destruct (string_dec x id) as [->|Hx]; [|rewrite lookup_insert_ne by assumption; eauto].
  rewrite lookup_insert_eq, He. destruct (is_pending st); eexists; (split; [reflexivity|]); cbn; lia.
Qed.

Lemma lost_reachable cf w log : reachable cf w log -> lost_inv cf w.
Proof.
  intros R. pose proof R as R0. revert w log R0 R.
  refine (reachable_ind' cf (fun w log => reachable cf w log -> lost_inv cf w) _ _).
  - intros _. split; [constructor|intros id []].
  - intros w log ev w' out R IH Hs _. specialize (IH R). destruct IH as [D M].
    pose proof (reachable_agrees _ _ _ R) as [ND _]. unfold lost_inv, lost_ids in *.
    destruct ev as [[id' st'|id' tx'|id' tx'] now'|now'| | | |i]; cbn in Hs.
    + inversion Hs; subst; cbn. split; [exact D|]. intros id Hi. apply many_record. auto.
    + inversion Hs; subst; cbn. auto.
    + inversion Hs; subst; cbn. auto.
    + destruct (w_ticker w) eqn:Et; try discriminate. inversion Hs; subst. split; [constructor|intros id []].
    + destruct (w_ticker w) as [|t| |] eqn:Et; try discriminate. inversion Hs; subst; clear Hs. cbn.
      set (acts := flat_map (decide cf t) (w_acks w)).
      replace (match match acts with [] => TIdle | _ :: _ => TSend acts end with
               | TSend l => flat_map lost_of l | TForget id l => id :: flat_map lost_of l | _ => [] end)
        with (flat_map lost_of acts) by (destruct acts; reflexivity).
      split; [now apply scan_lost_nodup|]. intros id Hi. apply scan_lost in Hi. destruct Hi as (e & He & Ha).
      exists e. split; [|exact Ha]. now apply In_lookup.
    + destruct (w_ticker w) as [| |[|a rest]|] eqn:Et; try discriminate. inversion Hs; subst; clear Hs. cbn.
      destruct a as [c id m inform|id cl]; cbn in *.
      * destruct rest; [split; [constructor|intros id0 []]|]. auto.
      * auto.
    + destruct (w_ticker w) as [| | |id rest] eqn:Et; try discriminate. inversion Hs; subst; clear Hs. cbn.
      replace (match match rest with [] => TIdle | _ :: _ => TSend rest end with
               | TSend l => flat_map lost_of l | TForget id l => id :: flat_map lost_of l | _ => [] end)
        with (flat_map lost_of rest) by (destruct rest; reflexivity).
      inversion D; subst. split; [assumption|]. intros x Hx.
      destruct (M x (or_intror Hx)) as (e & He & Ha). exists e. split; [|exact Ha].
      rewrite lookup_remove_ne; [exact He|]. intros ->. auto.
    + destruct (nth_error (w_waits w) i) as [[id tx]|]; [|discriminate].
      destruct (wait_answer (w_acks w) id); inversion Hs; subst; auto.
Qed.

(** The message is pending, and too few sends of it are recorded for it to be given up. *)
Definition held (cf : ack_config) (w : worker) (id : string) : Prop :=
  exists e, lookup id (w_acks w) = Some e /\ is_pending (en_status e) = true /\ (en_attempts e < cf_max cf)%N.

Lemma held_step cf w log ev w' out id : reachable cf w log -> wstep cf w ev = Some (w', out) ->
  (forall st now, ev <> WRecv (MStatus id st) now) -> held cf w id ->
  held cf w' id /\ forall tx st, ~ In (LWait id tx st) out.
Proof.
  intros R Hs Hn H. pose proof (lost_reachable _ _ _ R) as [_ M]. pose proof H as (e & He & Hp & Ha). unfold held in *.
  destruct ev as [[id' st'|id' tx'|id' tx'] now'|now'| | | |i]; cbn in Hs.
  - inversion Hs; subst; cbn. split; [|intros tx st [X|[]]; discriminate].
    exists e. unfold record_ack. rewrite lookup_insert_ne; [auto|]. intros ->. now apply (Hn st' now').
  - inversion Hs; subst; cbn. split; [exact H|intros tx st [X|[]]; discriminate].
  - inversion Hs; subst; cbn. split; [exact H|intros tx st []].
  - destruct (w_ticker w); try discriminate. inversion Hs; subst. split; [exact H|intros tx st []].
  - destruct (w_ticker w) as [|t| |]; try discriminate. inversion Hs; subst. split; [exact H|].
    intros tx st X. apply in_map_iff in X. destruct X as (? & X & _). discriminate.
  - destruct (w_ticker w) as [| |[|a rest]|]; try discriminate. inversion Hs; subst. split; [exact H|intros tx st [X|[]]; discriminate].
  - unfold lost_ids in M. destruct (w_ticker w) as [| | |id' rest]; try discriminate. inversion Hs; subst; cbn.
    split; [|intros tx st [X|[]]; discriminate]. exists e. rewrite lookup_remove_ne; [auto|].
    intros ->. destruct (M id' (or_introl eq_refl)) as (e' & He' & Ha'). rewrite He in He'. inversion He'; subst. lia.
  - destruct (nth_error (w_waits w) i) as [[id' tx']|]; [|discriminate].
    destruct (wait_answer (w_acks w) id') eqn:Ew; inversion Hs; subst; (split; [exact H|]); intros tx st X; [|destruct X].
    destruct X as [X|[]]. inversion X; subst. unfold wait_answer in Ew. rewrite He, Hp in Ew. discriminate.
Qed.

(** ** The task *)
Lemma dead_step n n' out ws : ntrans n n' out ws -> n_consumer n = CDead ->
  n_consumer n' = CDead /\ forall e, In e out -> of_task e = false.
Proof.
  intros Ht Hd. destruct Ht; try congruence; try (split; [exact Hd|]; intros e0 He0; cbn in He0; intuition (subst; reflexivity)).
  - split; [destruct H0; exact Hd|]. intros e He. apply in_returned in He. destruct He as [He|(r & ->)]; [|reflexivity].
    destruct H0; cbn in He; intuition (subst; reflexivity).
  - split; [exact Hd|]. intros e He. apply in_map_iff in He. destruct He as (x & <- & _). reflexivity.
Qed.

Lemma task_step n n' out ws : ntrans n n' out ws -> n_consumer n <> CDead ->
  (n_consumer n' = CDead /\ exists c id, out = [NWriteLost c id false]) \/
  (n_consumer n' <> CDead /\ forall e, In e out -> failed_notice e = false).
Proof.
  intros Ht Hd. destruct Ht;
    try (right; split; [cbn; first [exact Hd|discriminate]|]; intros e0 He0; cbn in He0; intuition (subst; reflexivity)).
  - right. split; [destruct H0; exact Hd|]. intros e He. apply in_returned in He. destruct He as [He|(r & ->)]; [|reflexivity].
    destruct H0; cbn in He; intuition (subst; reflexivity).
  - right. split; [exact Hd|]. intros e He. apply in_map_iff in He. destruct He as (x & <- & _). reflexivity.
  - right. split; [cbn; destruct (is_done p); discriminate|]. intros e He. destruct H0; cbn in He; intuition (subst; reflexivity).
  - destruct ok; [right; split; [discriminate|intros e [<-|[]]; reflexivity]|left; split; [reflexivity|eauto]].
Qed.

Lemma dead_hist n l : nhist n l ->
  (n_consumer n = CDead <-> exists e, In e l /\ failed_notice e = true) /\
  forall pre e post, l = pre ++ e :: post -> failed_notice e = true -> forall x, In x post -> of_task x = false.
Proof.
  induction 1 as [name bus bcast cf | n l n' out ws Hh IH Ht | n l ws _ IH]; [|destruct IH as [I J]|exact IH].
  { split; [split; [discriminate|intros (e & [] & _)]|]. intros [|? ?] e post E; discriminate. }
  assert (Dec: n_consumer n = CDead \/ n_consumer n <> CDead) by (destruct (n_consumer n); auto; right; discriminate).
  destruct Dec as [D|D].
  - destruct (dead_step _ _ _ _ Ht D) as [D' O]. split.
    + split; [|auto]. intros _. apply I in D. destruct D as (e & He & Hf). exists e. split; [apply in_or_app; auto|exact Hf].
    + intros pre e post E Hf x Hx. destruct (app_split_cases _ _ _ _ _ E) as [(y & E1 & E2)|(y & E1 & E2)].
      * subst. rewrite in_app_iff in Hx. destruct Hx as [Hx|Hx]; [eapply J; eauto|auto].
      * subst. apply O. apply in_or_app. right. now right.
  - assert (No: forall e, In e l -> failed_notice e = false).
    { intros e He. destruct (failed_notice e) eqn:Ef; [|reflexivity]. exfalso. apply D, I. eauto. }
    destruct (task_step _ _ _ _ Ht D) as [[D' (c & id & ->)]|[D' O]].
    + split; [split; [|auto]|].
      * intros _. exists (NWriteLost c id false). split; [apply in_or_app; right; now left|reflexivity].
      * intros pre e post E Hf x Hx. destruct (app_split_cases _ _ _ _ _ E) as [(y & E1 & E2)|(y & E1 & E2)].
        { subst. rewrite (No e) in Hf; [discriminate|apply in_or_app; right; now left]. }
        { destruct y as [|? [|? ?]]; try discriminate. inversion E2; subst. destruct Hx. }
    + split; [split; [intros X; now destruct (D' X)|]|].
      * intros (e & He & Hf). exfalso. apply in_app_or in He. destruct He as [He|He]; [rewrite (No e He) in Hf|rewrite (O e He) in Hf]; discriminate.
      * intros pre e post E Hf x Hx. exfalso. assert (He: In e (l ++ out)) by (rewrite E; apply in_or_app; right; now left).
        apply in_app_or in He. destruct He as [He|He]; [rewrite (No e He) in Hf|rewrite (O e He) in Hf]; discriminate.
Qed.

(** ** A call waiting for a message the tracker holds *)
Definition stuck (n : node) (id : string) (k : nat) : Prop :=
  n_consumer n = CDead /\ held (n_cf n) (n_worker n) id /\ (forall st, ~ In (MStatus id st) (n_inbox n)) /\
  exists j, nth_error (n_jobs n) k = Some j /\ j_phase j = PAwait /\ j_id j = id.

Lemma stuck_step n l n' out ws id k : nhist n l -> ntrans n n' out ws -> stuck n id k ->
  (forall w st, In (NInbox w (MStatus id st)) out -> w = ByResend) ->
  stuck n' id k /\ forall r, ~ In (NReturn k r) out.
Proof.
  intros Hh Ht (Hd & H & Hq & j & Hj & Hp & Hid) No. pose proof (dead_step _ _ _ _ Ht Hd) as [Hd' Ho].
  pose proof (tracker_reachable _ _ Hh) as R.
  assert (No': forall w st, ~ In (NInbox w (MStatus id st)) out).
  { intros w st Hi. pose proof (No _ _ Hi). subst w. apply Ho in Hi. discriminate. }
  assert (HW: forall ev, wstep (n_cf n) (n_worker n) ev = Some (n_worker n', tracker_log out) ->
    (forall st now, ev <> WRecv (MStatus id st) now) -> held (n_cf n') (n_worker n') id /\ forall tx st, ~ In (LWait id tx st) (tracker_log out)).
  { intros ev Hs Hn. destruct (ntrans_static _ _ _ _ Ht) as (_ & _ & _ & ->). eapply held_step; eauto. }
  assert (A: held (n_cf n') (n_worker n') id /\ forall tx st, ~ In (NWorker (LWait id tx st)) out).
  { assert (Lg: forall tx st, In (NWorker (LWait id tx st)) out -> In (LWait id tx st) (tracker_log out)).
    { intros tx st Hi. unfold tracker_log. apply in_flat_map. eexists. split; [exact Hi|now left]. }
    assert (S: (n_worker n' = n_worker n /\ tracker_log out = []) \/
       exists ev, wstep (n_cf n) (n_worker n) ev = Some (n_worker n', tracker_log out) /\ forall st now, ev <> WRecv (MStatus id st) now).
    { tcases Ht; strip; cbn; try (now left); right; try (eexists; split; [eassumption|discriminate]).
      - eexists. split; [eassumption|]. intros st' now' E. inversion E; subst. apply (Hq st'). rewrite H0. now left.
      - eexists. split; [eassumption|]. intros st' now' E. now apply (H1 _ _ E). }
    destruct S as [[S1 S2]|(ev & S1 & S2)].
    - destruct (ntrans_static _ _ _ _ Ht) as (_ & _ & _ & ->). rewrite S1. split; [exact H|].
      intros tx st Hi. apply Lg in Hi. rewrite S2 in Hi. destruct Hi.
    - destruct (HW ev S1 S2) as [B C]. split; [exact B|]. intros tx st Hi. exact (C _ _ (Lg _ _ Hi)). }
  destruct A as [A B].
  assert (Q: forall st, ~ In (MStatus id st) (n_inbox n')).
  { intros st Hi. assert (G: In (MStatus id st) (n_inbox n) \/ exists w, In (NInbox w (MStatus id st)) out).
    { tcases Ht; cbn in Hi; auto; rewrite ?in_app_iff in Hi; cbn in Hi;
        try (destruct Hi as [Hi|[Hi|[]]]; [now left|]);
        try (right; inversion Hi; subst; eexists; cbn; rewrite ?in_app_iff; cbn; tauto);
        try discriminate Hi;
        try (left; match goal with E : n_inbox n = _ |- _ => rewrite E; right; exact Hi end). }
    destruct G as [G|(w & G)]; [exact (Hq _ G)|exact (No' _ _ G)]. }
  destruct (job_step _ _ _ _ k Ht) as [A1 B1|c id0 text inform wait A1 B1 C1|j0 sn p l0 A1 B1 C1 D1 E1|j0 st id0 A1 B1 C1 D1 E1].
  - split; [split; [exact Hd'|]; split; [exact A|]; split; [exact Q|]; exists j; rewrite A1; auto|].
    intros r Hi. apply (tagged k) in Hi; [|cbn; apply Nat.eqb_refl]. rewrite B1 in Hi. destruct Hi.
  - exfalso. subst k. rewrite (proj2 (nth_error_None _ _)) in Hj by lia. discriminate.
  - exfalso. assert (j0 = j) by congruence. subst j0. destruct B1; congruence.
  - exfalso. destruct (waits_hist n l Hh id0 k (or_intror D1)) as (j2 & Hj2 & E2).
    assert (id0 = id) by congruence. apply (B k st). rewrite E1. left. congruence.
Qed.

Lemma publish_stuck ws n id k : stuck n id k -> stuck (publish ws n) id k.
Proof. exact (fun H => H). Qed.

Lemma cstep_node c i ev c' out : cstep c i ev = Some (c', out) ->
  exists n' l ws, ntrans (cl_node c i) n' l ws /\ out = map (fun e => (i, e)) l /\
    forall j, cl_node c' j = publish ws (if Nat.eqb j i then n' else cl_node c j).
Proof.
  unfold cstep. destruct (Nat.ltb i (cl_size c)); [|discriminate].
  destruct (nstep (cl_node c i) ev) as [[[n' l] ws]|] eqn:E; [|discriminate].
  intros H; inversion H; subst. exists n', l, ws. split; [eapply nstep_trans; eauto|]. split; reflexivity.
Qed.

Lemma crun_log evs : forall c log c' log', crun c log evs = Some (c', log') -> exists new, log' = log ++ new.
Proof.
  induction evs as [|[i ev] evs IH]; intros c log c' log' H; cbn in H.
  - inversion H; subst. exists []. now rewrite app_nil_r.
  - destruct (cstep c i ev) as [[c1 out]|]; [|discriminate]. apply IH in H. destruct H as (new & ->).
    exists (out ++ new). now rewrite app_assoc.
Qed.

Lemma stuck_run c0 u id k evs : forall c log c' new, creachable c0 c log -> stuck (cl_node c u) id k ->
  crun c log evs = Some (c', log ++ new) ->
  (forall w st, In (u, NInbox w (MStatus id st)) new -> w = ByResend) ->
  forall r, ~ In (u, NReturn k r) new.
Proof.
  induction evs as [|[i ev] evs IH]; intros c log c' new R S H No r Hi; cbn in H.
  - inversion H as [[E1 E2]]. apply (f_equal (@length _)) in E2. rewrite app_length in E2. destruct new; [destruct Hi|cbn in E2; lia].
  - destruct (cstep c i ev) as [[c1 out]|] eqn:Es; [|discriminate].
    destruct (crun_log _ _ _ _ _ H) as (new' & E). rewrite <- app_assoc in E. apply app_inv_head in E. subst new.
    pose proof (creachable_step _ _ _ _ _ _ _ R Es) as R1. rewrite app_assoc in H.
    destruct (cstep_node _ _ _ _ _ Es) as (n' & l & ws & Ht & Eo & En).
    assert (G: stuck (cl_node c1 u) id k /\ ~ In (u, NReturn k r) out).
    { rewrite En. destruct (Nat.eqb_spec u i) as [->|Hne].
      - destruct (stuck_step _ _ _ _ _ id k (creachable_node _ _ _ R i) Ht S) as [S' N'].
        + intros w st Hx. apply (No w st). apply in_or_app. left. subst out. apply in_map_iff. eauto.
        + split; [now apply publish_stuck|]. subst out. intros Hx. apply in_map_iff in Hx. destruct Hx as (x & X & Hx).
          inversion X; subst. now apply N' in Hx.
      - split; [now apply publish_stuck|]. subst out. intros Hx. apply in_map_iff in Hx. destruct Hx as (x & X & Hx). inversion X; congruence. }
    destruct G as [G1 G2]. apply in_app_or in Hi. destruct Hi as [Hi|Hi]; [auto|].
    eapply (IH c1 (log ++ out)); eauto. intros w st Hx. apply (No w st). apply in_or_app. auto.
Qed.

Lemma held_iff n l id m cl x : nhist n l -> current id (tracker_log l) (Pending m cl) -> sends id (tracker_log l) x ->
  (x < cf_max (n_cf n))%N -> held (n_cf n) (n_worker n) id.
Proof.
  intros Hh Hc Hs Hx. apply view_current in Hc. destruct Hc as (e & Hv & He). apply sends_iff in Hs.
  destruct (reachable_agrees _ _ _ (tracker_reachable _ _ Hh)) as [_ V].
  pose proof (view_rec id (tracker_log l)) as Q. rewrite Hv in Q. destruct Q as [Q _].
  exists e. rewrite V. split; [exact Hv|]. split; [now rewrite He|]. rewrite Q. now rewrite <- Hs.
Qed.

Lemma waiting_job n l k id : nhist n l -> In (NInbox (ByCall k) (MWait id k)) l -> (forall r, ~ In (NReturn k r) l) ->
  exists j, nth_error (n_jobs n) k = Some j /\ j_phase j = PAwait /\ j_id j = id.
Proof.
  intros Hh Hi Hr. destruct (calls_hist n l Hh) as [IJ IN].
  destruct (nth_error (n_jobs n) k) as [j|] eqn:Hj.
  2:{ exfalso. apply nth_error_None in Hj. apply IN in Hj. apply (tagged k) in Hi; [|cbn; apply Nat.eqb_refl].
      rewrite Hj in Hi. destruct Hi. }
  exists j. split; [reflexivity|]. pose proof (before_wait _ _ _ _ Hh Hj) as BW.
  destruct (j_phase j) eqn:Ep; try (exfalso; exact (BW id Hi)).
  - split; [reflexivity|]. symmetry. eapply await_id; eauto.
  - exfalso. specialize (IJ _ _ Hj). destruct IJ as (rec & reg & _ & _ & _ & H). cbn zeta in H. rewrite Ep in H.
    assert (exists r', In (NReturn k r') (filter (of_call k) l)).
    { destruct H; eexists; rewrite ?in_app_iff; cbn; tauto. }
    destruct H0 as (r' & H0). apply filter_In in H0. exact (Hr _ (proj1 H0)).
Qed.

(** ** While no notice has failed, the task works off what it is given *)
Inductive works : node -> node -> list nlog -> Prop :=
| wk_refl n : works n n []
| wk_step n n1 n2 l1 l2 ws : nstep n (EConsumer true) = Some (n1, l1, ws) -> ws = [] -> works n1 n2 l2 -> works n n2 (l1 ++ l2).
Lemma works_trans n n1 n2 l1 l2 : works n n1 l1 -> works n1 n2 l2 -> works n n2 (l1 ++ l2).
Proof. induction 1; intros X; [exact X|]. rewrite <- app_assoc. econstructor; eauto. Qed.
Lemma works_one n n1 l1 : nstep n (EConsumer true) = Some (n1, l1, []) -> works n n1 l1.
Proof. intros H. rewrite <- (app_nil_r l1). econstructor; [exact H|reflexivity|constructor]. Qed.

Lemma works_run c log u n' l : (u < cl_size c)%nat -> works (cl_node c u) n' l ->
  exists evs c', Forall (fun e => e = (u, EConsumer true)) evs /\ crun c log evs = Some (c', log ++ map (fun e => (u, e)) l) /\
    cl_node c' u = n' /\ cl_size c' = cl_size c.
Proof.
  intros Hu H. remember (cl_node c u) as n eqn:En. revert c log Hu En.
  induction H as [n|n n1 n2 l1 l2 ws Hs Hws _ IH]; intros c log Hu ->.
  - exists [], c. cbn. rewrite app_nil_r. auto.
  - subst ws.
    destruct (IH {| cl_size := cl_size c; cl_node := fun j => publish [] (if Nat.eqb j u then n1 else cl_node c j) |} (log ++ map (fun e => (u, e)) l1))
      as (evs & c' & F & E & N & Z); [exact Hu| |].
    { cbn [cl_node]. rewrite Nat.eqb_refl. symmetry. apply publish_nil. }
    exists ((u, EConsumer true) :: evs), c'. split; [constructor; auto|]. split; [|auto].
    cbn [crun]. unfold cstep. rewrite (proj2 (Nat.ltb_lt _ _) Hu), Hs, E, map_app, app_assoc. reflexivity.
Qed.

(** What the task does not touch. *)
Definition same (n n' : node) : Prop := n_conns n' = n_conns n /\ n_actions n' = n_actions n /\ n_started n' = n_started n.

Lemma works_lost todo : forall n id, n_consumer n = CLost id todo ->
  exists n' l, works n n' l /\ n_consumer n' = CIdle /\ same n n' /\
    forall x, In x todo -> has_conn x n = true -> In (NWriteLost x id true) l.
Proof.
  induction todo as [|c todo IH]; intros n id Hc.
  - exists (set_consumer n CIdle), []. split; [apply works_one; cbn [nstep]; now rewrite Hc|]. split; [reflexivity|]. split; [now repeat split|intros x []].
  - destruct (has_conn c n) eqn:Eh.
    + destruct (IH (set_consumer n (CLost id todo)) id eq_refl) as (n' & l & W & I & (S1 & S2 & S3) & N).
      exists n', ([NWriteLost c id true] ++ l). split.
      { eapply works_trans; [apply works_one; cbn [nstep]; rewrite Hc, Eh; reflexivity|exact W]. }
      split; [exact I|]. split; [repeat split; assumption|].
      intros x [<-|Hx] Hh; [now left|]. right. apply N; [exact Hx|exact Hh].
    + destruct (IH (set_consumer n (CLost id todo)) id eq_refl) as (n' & l & W & I & (S1 & S2 & S3) & N).
      exists n', ([] ++ l). split.
      { eapply works_trans; [apply works_one; cbn [nstep]; rewrite Hc, Eh; reflexivity|exact W]. }
      split; [exact I|]. split; [repeat split; assumption|].
      intros x [<-|Hx] Hh; [congruence|]. apply N; [exact Hx|exact Hh].
Qed.

Definition resendable (j : job) : Prop :=
  j_wait j = false /\ match j_phase j with PLookup | PDeliver | PRecord | PPublish => True | _ => False end.

Lemma works_publish n j : n_consumer n = CSend j -> j_wait j = false -> j_phase j = PPublish ->
  exists n' l, works n n' l /\ n_consumer n' = CIdle /\ same n n'.
Proof.
  intros Hc Hw Hp. eexists _, _. split; [apply works_one; cbn [nstep]; rewrite Hc; unfold send_step; rewrite Hp, Hw; cbn; reflexivity|].
  split; [reflexivity|now repeat split].
Qed.
Lemma works_record n j : n_consumer n = CSend j -> j_wait j = false -> j_phase j = PRecord ->
  exists n' l, works n n' l /\ n_consumer n' = CIdle /\ same n n'.
Proof.
  intros Hc Hw Hp. unfold same.
  assert (E: exists n1 l1, nstep n (EConsumer true) = Some (n1, l1, []) /\ n_consumer n1 = CSend (with_phase j PPublish) /\
    n_conns n1 = n_conns n /\ n_actions n1 = n_actions n /\ n_started n1 = n_started n).
  { cbn [nstep]. rewrite Hc. unfold send_step, to_worker. rewrite Hp. destruct (n_started n) eqn:Es; eexists _, _; (split; [reflexivity|]); cbn; auto. }
  destruct E as (n1 & l1 & E & C1 & A1 & A2 & A3).
  destruct (works_publish n1 (with_phase j PPublish) C1 Hw eq_refl) as (n' & l & W & I & B1 & B2 & B3).
  exists n', (l1 ++ l). split; [eapply works_trans; [apply works_one; exact E|exact W]|]. split; [exact I|].
  now rewrite B1, B2, B3.
Qed.
Lemma works_deliver n j : n_consumer n = CSend j -> j_phase j = PDeliver ->
  exists n' l, works n n' l /\ n_consumer n' = CIdle /\ same n n'.
Proof.
  intros Hc Hp. eexists _, _. split; [apply works_one; cbn [nstep]; rewrite Hc; unfold send_step; rewrite Hp; cbn; reflexivity|].
  split; [reflexivity|now repeat split].
Qed.
Lemma works_lookup n j : n_consumer n = CSend j -> j_wait j = false -> j_phase j = PLookup ->
  exists n' l, works n n' l /\ n_consumer n' = CIdle /\ same n n' /\ In (NFound ByResend (j_conn j) (has_conn (j_conn j) n)) l.
Proof.
  intros Hc Hw Hp. unfold same.
  set (p := if has_conn (j_conn j) n then PDeliver else if n_bcast n then PRecord else PDone RSent).
  assert (E: nstep n (EConsumer true) = Some (set_consumer n (match p with PDone _ => CIdle | _ => CSend (with_phase j p) end),
    [NFound ByResend (j_conn j) (has_conn (j_conn j) n)], [])).
  { cbn [nstep]. rewrite Hc. unfold send_step. rewrite Hp. reflexivity. }
  assert (P: p = PDeliver \/ p = PRecord \/ p = PDone RSent) by (unfold p; destruct (has_conn _ _), (n_bcast n); auto).
  destruct P as [P|[P|P]]; rewrite P in E.
  - destruct (works_deliver (set_consumer n (CSend (with_phase j PDeliver))) (with_phase j PDeliver) eq_refl eq_refl) as (n' & l & W & I & B1 & B2 & B3).
    eexists n', _. split; [eapply works_trans; [apply works_one; exact E|exact W]|]. split; [exact I|].
    split; [rewrite B1, B2, B3; auto|now left].
  - destruct (works_record (set_consumer n (CSend (with_phase j PRecord))) (with_phase j PRecord) eq_refl Hw eq_refl) as (n' & l & W & I & B1 & B2 & B3).
    eexists n', _. split; [eapply works_trans; [apply works_one; exact E|exact W]|]. split; [exact I|].
    split; [rewrite B1, B2, B3; auto|now left].
  - eexists _, _. split; [apply works_one; exact E|]. split; [reflexivity|]. split; [now repeat split|now left].
Qed.

(** What the task does for one action. *)
Definition served (n : node) (l : list nlog) (a : action) : Prop :=
  match a with
  | Resend c _ _ _ => In (NFound ByResend c (has_conn c n)) l
  | ActLost id clients => forall x, In x clients -> has_conn x n = true -> In (NWriteLost x id true) l
  end.
Lemma served_app n a l1 l2 : served n l1 a \/ served n l2 a -> served n (l1 ++ l2) a.
Proof.
  destruct a; cbn; intros [H|H]; try (intros x Hx Hh; specialize (H x Hx Hh)); rewrite in_app_iff; auto.
Qed.
Lemma served_same n n' l a : n_conns n' = n_conns n -> served n' l a -> served n l a.
Proof. unfold served, has_conn. intros ->. auto. Qed.

Lemma works_queue acts : forall n, n_consumer n = CIdle -> n_started n = true -> n_actions n = acts ->
  exists n' l, works n n' l /\ n_consumer n' = CIdle /\ n_actions n' = [] /\ forall a, In a acts -> served n l a.
Proof.
  induction acts as [|a acts IH]; intros n Hc Hs Ha.
  - exists n, []. split; [constructor|]. split; [exact Hc|]. split; [exact Ha|intros a []].
  - assert (One: exists n1 l1, works n n1 l1 /\ n_consumer n1 = CIdle /\ n_conns n1 = n_conns n /\ n_actions n1 = acts /\ n_started n1 = true /\ served n l1 a).
    { destruct a as [c id m inform|id cl].
      - assert (E: nstep n (EConsumer true) = Some (set_consumer (set_actions n acts) (CSend (resend_job c id m inform)), [], [])).
        { cbn [nstep]. rewrite Hc, Hs, Ha. reflexivity. }
        destruct (works_lookup (set_consumer (set_actions n acts) (CSend (resend_job c id m inform))) (resend_job c id m inform) eq_refl eq_refl eq_refl)
          as (n1 & l1 & W & I & (B1 & B2 & B3) & F).
        exists n1, ([] ++ l1). split; [eapply works_trans; [apply works_one; exact E|exact W]|].
        split; [exact I|]. rewrite B1, B2, B3. split; [reflexivity|]. split; [reflexivity|]. split; [exact Hs|exact F].
      - assert (E: nstep n (EConsumer true) = Some (set_consumer (set_actions n acts) (CLost id cl), [], [])).
        { cbn [nstep]. rewrite Hc, Hs, Ha. reflexivity. }
        destruct (works_lost cl (set_consumer (set_actions n acts) (CLost id cl)) id eq_refl)
          as (n1 & l1 & W & I & (B1 & B2 & B3) & F).
        exists n1, ([] ++ l1). split; [eapply works_trans; [apply works_one; exact E|exact W]|].
        split; [exact I|]. rewrite B1, B2, B3. split; [reflexivity|]. split; [reflexivity|]. split; [exact Hs|exact F]. }
    destruct One as (n1 & l1 & W1 & C1 & N1 & A1 & S1 & V1).
    destruct (IH n1 C1 S1 A1) as (n2 & l2 & W2 & C2 & A2 & V2).
    exists n2, (l1 ++ l2). split; [eapply works_trans; eauto|]. split; [exact C2|]. split; [exact A2|].
    intros b [<-|Hb]; apply served_app; [now left|]. right. apply (served_same n n1); auto.
Qed.

Lemma send_ready n l : nhist n l -> match n_consumer n with CSend j => resendable j /\ n_started n = true | CLost _ _ => n_started n = true | _ => True end.
Proof.
  induction 1 as [name bus bcast cf | n l n' out ws Hh IH Ht | n l ws _ IH]; [exact I| |exact IH].
  destruct Ht; cbn; try (match goal with S : strans _ (ByCall _) _ _ _ _ _ |- _ => destruct S; exact IH end); try exact IH; try exact I; auto.
  - destruct (n_consumer n) as [|j|? ?|]; auto. split; [apply IH|reflexivity].
  - split; [|auto]. split; [reflexivity|exact I].
  - rewrite H in IH. destruct IH as [[Hw Hp] Hs]. unfold resendable.
    destruct H0; cbn; auto; try (now rewrite Hw); try (rewrite H0 in Hp; destruct Hp).
  - rewrite H in IH. destruct ok; [exact IH|exact I].
  - now rewrite H in IH.
Qed.

Lemma works_all n l : nhist n l -> n_started n = true -> n_consumer n <> CDead ->
  exists n' l', works n n' l' /\ n_consumer n' = CIdle /\ n_actions n' = [] /\ forall a, In a (n_actions n) -> served n l' a.
Proof.
  intros Hh Hs Hd. pose proof (send_ready n l Hh) as R.
  assert (First: exists n1 l1, works n n1 l1 /\ n_consumer n1 = CIdle /\ same n n1).
  { destruct (n_consumer n) as [|j|id todo|] eqn:Ec.
    - exists n, []. split; [constructor|]. split; [exact Ec|now repeat split].
    - destruct R as [[Hw Hp] _]. destruct (j_phase j) eqn:Ep; try now destruct Hp.
      + destruct (works_lookup n j Ec Hw Ep) as (n1 & l1 & ? & ? & ? & _). eauto.
      + eapply works_deliver; eauto.
      + eapply works_record; eauto.
      + eapply works_publish; eauto.
    - destruct (works_lost todo n id Ec) as (n1 & l1 & ? & ? & ? & _). eauto.
    - now destruct Hd. }
  destruct First as (n1 & l1 & W1 & C1 & (B1 & B2 & B3)).
  destruct (works_queue (n_actions n) n1 C1) as (n2 & l2 & W2 & C2 & A2 & V2); [congruence|exact B2|].
  exists n2, (l1 ++ l2). split; [eapply works_trans; eauto|]. split; [exact C2|]. split; [exact A2|].
  intros a Ha. apply served_app. right. apply (served_same n n1); auto.
Qed.
