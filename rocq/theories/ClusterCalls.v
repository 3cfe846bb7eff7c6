(** Calls of send_message: what each does from start to end. *)
From Verif Require Import Base AckModel AckSpec AckProofs ClusterModel ClusterSpec ClusterTrans ClusterNode.
Open Scope string_scope.
Local Open Scope list_scope.

Lemma nth_set_eq {A} k (v : A) l x : nth_error l k = Some x -> nth_error (set_nth k v l) k = Some v.
Proof. revert k. induction l as [|y l IH]; intros [|k] H; cbn in *; try discriminate; auto. Qed.
Lemma nth_set_ne {A} k k' (v : A) l : k <> k' -> nth_error (set_nth k v l) k' = nth_error l k'.
Proof. revert k k'. induction l as [|y l IH]; intros [|k] [|k'] H; cbn; auto; try congruence. Qed.
Lemma length_set {A} k (v : A) l : length (set_nth k v l) = length l.
Proof. revert k. induction l as [|y l IH]; intros [|k]; cbn; auto. Qed.

Definition res_of (st : ack_status) : send_result := match st with Received => RSent | _ => RLost end.

(** What one step does to call [k]. *)
Inductive jstep (n n' : node) (out : list nlog) (k : nat) : Prop :=
| js_same : nth_error (n_jobs n') k = nth_error (n_jobs n) k -> filter (of_call k) out = [] -> jstep n n' out k
| js_new c id text inform wait : k = length (n_jobs n) -> n_jobs n' = n_jobs n ++ [call_job c id text inform wait] ->
    out = [NCall k c id text inform wait] -> jstep n n' out k
| js_send j sn p l : nth_error (n_jobs n) k = Some j -> strans n (ByCall k) k j sn p l ->
    nth_error (n_jobs n') k = Some (with_phase j p) -> out = l ++ returned k (with_phase j p) ->
    filter (of_call k) out = out -> jstep n n' out k
| js_answer j st id : nth_error (n_jobs n) k = Some j -> j_phase j = PAwait ->
    nth_error (n_jobs n') k = Some (with_phase j (PDone (res_of st))) ->
    In (id, k) (w_waits (n_worker n)) ->
    out = [NWorker (LWait id k st); NReturn k (res_of st)] -> jstep n n' out k.

Lemma strans_jobs n w tx j sn p l : strans n w tx j sn p l -> n_jobs sn = n_jobs n.
Proof. intros S; destruct S; reflexivity. Qed.
Lemma strans_tags n k j sn p l tx : strans n (ByCall k) tx j sn p l -> filter (of_call k) l = l /\ forall k', k' <> k -> filter (of_call k') l = [].
Proof.
  intros S; destruct S; cbn; rewrite ?Nat.eqb_refl; (split; [reflexivity|intros k' Hk]);
    rewrite ?(proj2 (Nat.eqb_neq k k')) by congruence; reflexivity.
Qed.
Lemma strans_resend n tx j sn p l k : strans n ByResend tx j sn p l -> filter (of_call k) l = [].
Proof. intros S; destruct S; reflexivity. Qed.
Lemma returned_tags k j : filter (of_call k) (returned k j) = returned k j /\ forall k', k' <> k -> filter (of_call k') (returned k j) = [].
Proof.
  unfold returned. destruct (j_phase j); cbn; rewrite ?Nat.eqb_refl; (split; [reflexivity|intros k' Hk]);
    rewrite ?(proj2 (Nat.eqb_neq k k')) by congruence; reflexivity.
Qed.

Lemma job_step n n' out ws k : ntrans n n' out ws -> jstep n n' out k.
Proof.
  intros H. destruct H; try (apply js_same; reflexivity).
  - destruct (Nat.eq_dec k (length (n_jobs n))) as [->|Hk].
    + eapply js_new; reflexivity.
    + apply js_same; cbn.
      * destruct (Nat.lt_ge_cases k (length (n_jobs n))) as [Hl|Hl].
        { now rewrite nth_error_app1. }
        { rewrite (proj2 (nth_error_None _ _)), (proj2 (nth_error_None _ _)); [reflexivity|lia|rewrite app_length; cbn; lia]. }
      * rewrite (proj2 (Nat.eqb_neq _ _)) by congruence. reflexivity.
  - destruct (Nat.eq_dec k0 k) as [->|Hk].
    + eapply js_send; eauto.
      * cbn. rewrite (strans_jobs _ _ _ _ _ _ _ H0). eapply nth_set_eq; eauto.
      * rewrite filter_app, (proj1 (strans_tags _ _ _ _ _ _ _ H0)), (proj1 (returned_tags k (with_phase j p))). reflexivity.
    + apply js_same.
      * cbn. rewrite (strans_jobs _ _ _ _ _ _ _ H0). now apply nth_set_ne.
      * rewrite filter_app, (proj2 (strans_tags _ _ _ _ _ _ _ H0)), (proj2 (returned_tags k0 (with_phase j p))) by congruence. reflexivity.
  - apply js_same; [reflexivity|]. clear. induction es; auto.
  - destruct (Nat.eq_dec tx k) as [->|Hk].
    + apply js_answer with (j := j) (st := st) (id := id); auto.
      * cbn. eapply nth_set_eq; eauto.
      * eapply nth_error_In; eauto.
    + apply js_same; cbn.
      * now apply nth_set_ne.
      * rewrite (proj2 (Nat.eqb_neq _ _)) by congruence. reflexivity.
  - apply js_same; [cbn; now rewrite (strans_jobs _ _ _ _ _ _ _ H0)|]. eapply strans_resend; eauto.
Qed.

Lemma jobs_grow n n' out ws : ntrans n n' out ws -> (length (n_jobs n) <= length (n_jobs n'))%nat.
Proof.
  intros H. destruct H; cbn; try lia.
  - rewrite app_length. lia.
  - rewrite length_set, (strans_jobs _ _ _ _ _ _ _ H0). lia.
  - rewrite length_set. lia.
  - rewrite (strans_jobs _ _ _ _ _ _ _ H0). lia.
Qed.

Lemma started_log n l : nhist n l -> (In NStarted l <-> n_started n = true).
Proof.
  induction 1 as [| n l n' out ws _ IH Ht | n l ws _ IH]; [split; [intros []|discriminate]| |exact IH].
  assert (G: (In NStarted out /\ n_started n' = true) \/ (~ In NStarted out /\ n_started n' = n_started n)).
  { tcases Ht; try (left; split; [now left|reflexivity]); right; (split; [|reflexivity]);
      try (unfold returned; match goal with |- context [match j_phase ?j with _ => _ end] => destruct (j_phase j) end);
      cbn; try (intros Hi; intuition discriminate).
    intros Hi. apply in_map_iff in Hi. destruct Hi as (x & X & _). discriminate X. }
  rewrite in_app_iff, IH. destruct G as [[A B]|[A B]]; rewrite B; tauto.
Qed.

Lemma started_mono n n' out ws : ntrans n n' out ws -> n_started n = true -> n_started n' = true.
Proof. intros H. tcases H; cbn; auto. Qed.

Lemma started_same n n' out ws : ntrans n n' out ws -> out <> [NStarted] -> n_started n' = n_started n.
Proof. intros H Hne. tcases H; try reflexivity. congruence. Qed.

(** The tracker was running when call [k] was made. *)
Definition started_before (k : nat) (l : list nlog) : Prop :=
  exists pre c id text inform wait post, l = pre ++ NCall k c id text inform wait :: post /\ In NStarted pre.

Definition head2 (k : nat) (j : job) (b : bool) : list nlog :=
  [NCall k (j_conn j) (j_id j) (j_text j) (j_inform j) (j_wait j); NFound (ByCall k) (j_conn j) b].
Definition rec_entry (k : nat) (j : job) : nlog := NInbox (ByCall k) (MStatus (j_id j) (Pending (j_text j) (j_inform j))).

Definition job_trace (n : node) (l : list nlog) (k : nat) (j : job) : Prop :=
  exists rec reg, (rec = true -> reg = true) /\ (reg = true -> n_started n = true) /\ (started_before k l -> rec = true) /\
  let t := filter (of_call k) l in
  match j_phase j with
  | PLookup => t = [NCall k (j_conn j) (j_id j) (j_text j) (j_inform j) (j_wait j)] /\ rec = n_started n
  | PDeliver => t = head2 k j true
  | PRecord => t = head2 k j false /\ n_bcast n = true /\ rec = n_started n
  | PPublish => t = head2 k j false ++ ifb rec [rec_entry k j] /\ n_bcast n = true
  | PRegister => t = head2 k j false ++ ifb rec [rec_entry k j] ++ [NOut (ByCall k) (MsgWs (ws_of n j))] /\
      n_bcast n = true /\ j_wait j = true /\ reg = n_started n
  | PAwait => t = head2 k j false ++ ifb rec [rec_entry k j] ++ [NOut (ByCall k) (MsgWs (ws_of n j))] ++ [NInbox (ByCall k) (MWait (j_id j) k)] /\
      n_bcast n = true /\ j_wait j = true /\ reg = true
  | PDone r => call_trace (n_name n) (n_bcast n) k (j_conn j) (j_id j) (j_text j) (j_inform j) (j_wait j) rec reg t
  end.

Definition calls_inv (n : node) (l : list nlog) : Prop :=
  (forall k j, nth_error (n_jobs n) k = Some j -> job_trace n l k j) /\
  (forall k, (length (n_jobs n) <= k)%nat -> filter (of_call k) l = []).

Lemma tag_call k l c id text inform wait : In (NCall k c id text inform wait) l -> filter (of_call k) l <> [].
Proof.
  intros H E. assert (Hi: In (NCall k c id text inform wait) (filter (of_call k) l)).
  { apply filter_In. split; [exact H|]. cbn. apply Nat.eqb_refl. }
  rewrite E in Hi. destruct Hi.
Qed.

Lemma started_before_app k l out : started_before k (l ++ out) ->
  (forall c id text inform wait, ~ In (NCall k c id text inform wait) out) -> started_before k l.
Proof.
  intros (pre & c & id & text & inform & wait & post & E & Hs) Hn. apply app_split_cases in E.
  destruct E as [(r & -> & _)|(o1 & -> & ->)].
  - exists pre, c, id, text, inform, wait, r. auto.
  - exfalso. eapply (Hn c id text inform wait). apply in_or_app. right. now left.
Qed.

Lemma no_call_filter k out : filter (of_call k) out = [] -> forall c id text inform wait, ~ In (NCall k c id text inform wait) out.
Proof. intros H c id text inform wait Hi. exact (tag_call _ _ _ _ _ _ _ Hi H). Qed.

Lemma calls_hist n l : nhist n l -> calls_inv n l.
Proof.
  induction 1 as [name bus bcast cf | n l n' out ws Hh IH Ht | n l ws _ IH].
  - split; [intros [|k] j H; discriminate|reflexivity].
  - destruct IH as [IJ IN]. pose proof (ntrans_static _ _ _ _ Ht) as (En & _ & Eb & _).
    pose proof (started_mono _ _ _ _ Ht) as Mono.
    split.
    2:{ intros k Hk. pose proof (jobs_grow _ _ _ _ Ht). rewrite filter_app, IN by lia.
        destruct (job_step _ _ _ _ k Ht) as [A B|c id text inform wait A B C|j sn p l0 A B C D E|j st id A B C D E].
        - now rewrite B.
        - rewrite B, app_length in Hk. cbn in Hk. lia.
        - pose proof (nth_error_Some (n_jobs n) k) as [X _]. rewrite A in X. specialize (X ltac:(discriminate)). lia.
        - pose proof (nth_error_Some (n_jobs n) k) as [X _]. rewrite A in X. specialize (X ltac:(discriminate)). lia. }
    intros k j' Hj'.
    destruct (job_step _ _ _ _ k Ht) as [A B|c id text inform wait A B C|j sn p l0 A B C D E|j st id A B C D E].
    + rewrite A in Hj'. pose proof Hj' as Hj. apply IJ in Hj'. destruct Hj' as (rec & reg & H1 & H2 & H3 & H4).
      assert (Hsb: started_before k (l ++ out) -> rec = true).
      { intros Hs. apply H3. eapply started_before_app; eauto. now apply no_call_filter. }
      assert (Ewt: forall x, ws_of n' x = ws_of n x) by (intros x; unfold ws_of; now rewrite En).
      unfold job_trace. rewrite filter_app, B, app_nil_r, En, Eb.
      destruct (j_phase j') eqn:Ep; cbn zeta in *; rewrite ?Ewt.
      * destruct H4 as [H4 H5]. exists (n_started n'), (n_started n'). split; [auto|]. split; [auto|]. split; [|auto].
        intros Hs. apply Mono. rewrite <- H5. auto.
      * exists rec, reg. auto.
      * destruct H4 as (H4 & H5 & H6). exists (n_started n'), (n_started n'). split; [auto|]. split; [auto|]. split; [|auto].
        intros Hs. apply Mono. rewrite <- H6. auto.
      * exists rec, reg. auto.
      * destruct H4 as (H4 & H5 & H6 & H7). exists rec, (n_started n'). split; [auto|]. split; [auto|]. split; auto.
      * destruct H4 as (H4 & H5 & H6 & H7). exists rec, reg. split; [auto|]. split; [auto|]. split; auto.
      * exists rec, reg. auto.
    + rewrite B in Hj'. rewrite nth_error_app2 in Hj' by lia. rewrite A, Nat.sub_diag in Hj'. cbn in Hj'. inversion Hj'; subst j'.
      exists (n_started n'), (n_started n'). split; [auto|]. split; [auto|].
      assert (Es: n_started n' = n_started n).
      { clear - Ht C. tcases Ht; try reflexivity; discriminate C. }
      assert (F: filter (of_call k) l = []) by (apply IN; lia).
      split.
      * rewrite Es. intros (pre & c1 & id1 & t1 & i1 & w1 & post & E & Hs). rewrite C in E.
        apply app_split_cases in E. destruct E as [(r & E & _)|(o1 & -> & E)].
        { exfalso. eapply (no_call_filter k l F c1 id1 t1 i1 w1). rewrite E. apply in_or_app. right. now left. }
        { destruct o1 as [|x [|]]; try discriminate E. rewrite app_nil_r in Hs. now apply (started_log n l). }
      * cbn. rewrite filter_app, F, C. cbn. rewrite Nat.eqb_refl. auto.
    + rewrite C in Hj'. inversion Hj'; subst j'. clear Hj'.
      apply IJ in A. destruct A as (rec & reg & H1 & H2 & H3 & H4).
      assert (Hsb: started_before k (l ++ out) -> rec = true).
      { intros Hs. apply H3. eapply started_before_app; eauto. rewrite D. intros c1 id1 t1 i1 w1 Hi.
        apply in_app_or in Hi. destruct Hi as [Hi|Hi].
        - destruct B; cbn in Hi; intuition discriminate.
        - unfold returned in Hi. destruct (j_phase (with_phase j p)); cbn in Hi; intuition discriminate. }
      assert (R2: reg = true -> n_started n' = true) by auto.
      assert (Ewt: forall x, ws_of n' x = ws_of n x) by (intros x; unfold ws_of; now rewrite En).
      unfold job_trace. set (SB := started_before k (l ++ out)) in *. clearbody SB.
      rewrite filter_app, E, D, En, Eb. cbn zeta.
      assert (Est: n_started n' = n_started n).
      { apply (started_same _ _ _ _ Ht). rewrite D. unfold returned. destruct B; cbn; try discriminate; destruct (j_wait j); discriminate. }
      change (j_phase (with_phase j p)) with p.
      destruct B; match goal with Hp : j_phase j = _ |- _ => rewrite Hp in H4 end; cbn zeta in H4; unfold returned; cbn [j_phase with_phase].
      * exists rec, reg. destruct H4 as [H4 _]. rewrite H4. split; [auto|]. split; [auto|]. split; [auto|]. reflexivity.
      * exists rec, reg. destruct H4 as [H4 K5]. rewrite H4, Est. split; [auto|]. split; [rewrite <- Est; auto|]. split; [auto|]. split; [reflexivity|]. auto.
      * exists rec, reg. destruct H4 as [H4 K5]. rewrite H4. split; [auto|]. split; [auto|]. split; [auto|].
        cbn. apply CtNowhere. assumption.
      * exists rec, reg. rewrite H4. split; [auto|]. split; [auto|]. split; [auto|]. cbn. apply CtLocal.
      * exists rec, reg. destruct H4 as (H4 & K5 & K6). rewrite H4. split; [auto|]. split; [auto|]. split; [auto|].
        rewrite K6, H0. cbn. auto.
      * exists rec, reg. destruct H4 as (H4 & K5 & K6). rewrite H4. split; [auto|]. split; [auto|]. split; [auto|].
        rewrite K6, H0. cbn. auto.
      * destruct H4 as (H4 & K5). destruct (j_wait j) eqn:Ew; rewrite H4.
        { exists rec, (n_started n'). split; [|split; [auto|split; [auto|]]].
          - intros X. apply R2. auto.
          - cbn [j_phase with_phase returned]. rewrite app_nil_r, <- app_assoc, Ewt. split; [reflexivity|]. auto. }
        { exists rec, reg. split; [auto|]. split; [auto|]. split; [auto|].
          pose proof (CtRemote (n_name n) (n_bcast n) k (j_conn j) (j_id j) (j_text j) (j_inform j) (j_wait j) rec reg RSent K5
            (fun _ => eq_refl) (or_introl eq_refl)) as T. rewrite Ew in T. cbn [andb ifb app] in T.
          unfold head2. cbn [with_phase j_conn j_id j_text j_inform j_wait]. rewrite Ew. cbn [app] in T |- *. rewrite <- ?app_assoc. exact T. }
      * destruct H4 as (H4 & K5). rewrite H4. exists rec, reg. split; [auto|]. split; [auto|]. split; [auto|].
        rewrite <- app_assoc. apply CtNoBus. assumption.
      * destruct H4 as (H4 & K5 & K6 & K7). rewrite H4. exists rec, true. split; [auto|]. split; [rewrite Est; auto|]. split; [auto|].
        rewrite app_nil_r, <- !app_assoc, Ewt. split; [reflexivity|]. auto.
      * destruct H4 as (H4 & K5 & K6 & K7). rewrite H4. exists rec, reg. split; [auto|]. split; [auto|]. split; [auto|].
        pose proof (CtRemote (n_name n) (n_bcast n) k (j_conn j) (j_id j) (j_text j) (j_inform j) (j_wait j) rec reg RSent K5
            (fun _ => eq_refl) (or_introl eq_refl)) as T. rewrite K7, H0, andb_false_r in T. cbn [ifb app] in T.
        rewrite K7, H0. cbn [app]. rewrite <- !app_assoc. exact T.
    + rewrite C in Hj'. inversion Hj'; subst j'. clear Hj'.
      apply IJ in A. destruct A as (rec & reg & H1 & H2 & H3 & H4). rewrite B in H4. cbn zeta in H4.
      destruct H4 as (H4 & H5 & H6 & H7).
      exists rec, reg. split; [auto|]. split; [auto|]. split.
      { intros Hs. apply H3. eapply started_before_app; eauto. rewrite E. intros c1 id1 t1 i1 w1 Hi. cbn in Hi. intuition discriminate. }
      cbn. rewrite filter_app, H4, E, En, Eb. cbn [filter of_call]. rewrite Nat.eqb_refl. subst reg.
      rewrite <- !app_assoc.
      pose proof (CtRemote (n_name n) (n_bcast n) k (j_conn j) (j_id j) (j_text j) (j_inform j) (j_wait j) rec true (res_of st) H5) as T.
      rewrite H6 in T |- *. unfold head2. rewrite H6. apply T; [discriminate|]. destruct st; cbn; auto.
  - exact IH.
Qed.
