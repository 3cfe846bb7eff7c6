(** What happens to a message on the receiving side, and waits. *)
From Verif Require Import Base AckModel AckSpec AckProofs ClusterModel ClusterSpec ClusterTrans ClusterNode ClusterCalls ClusterSafety.
Open Scope string_scope.
Local Open Scope list_scope.

(** ** The listener's question and the answer it gets *)
Definition checks (ms : list worker_msg) : list string :=
  flat_map (fun m => match m with MCheck id _ => [id] | _ => [] end) ms.
Lemma checks_app a b : checks (a ++ b) = checks a ++ checks b. Proof. apply flat_map_app. Qed.
Definition asked (n : node) : list string := match n_listener n with LChecking m => [wm_id m] | _ => [] end.

Lemma checks_hist n l : nhist n l -> checks (n_inbox n) = asked n.
Proof.
  induction 1 as [name bus bcast cf | n l n' out ws Hh IH Ht | n l ws _ IH]; [reflexivity| |exact IH].
  unfold asked in *. tcases Ht; cbn; rewrite ?checks_app; cbn; rewrite ?app_nil_r; auto;
    try match goal with E : n_inbox n = _ |- _ => rewrite E in IH; cbn in IH end;
    try match goal with E : n_listener n = _ |- _ => rewrite E in IH; cbn in IH end; auto;
    try congruence.
  - exfalso. destruct (n_listener n) eqn:E; try discriminate. now apply (H0 m).
  - now rewrite IH.
Qed.

(** The listener only skips a message whose id its own tracker holds as received. *)
Lemma step_skip n n' out ws l m : nhist n l -> ntrans n n' out ws -> In (NSkip m) out ->
  exists tx, In (NWorker (LCheck (wm_id m) tx Received)) out.
Proof.
  intros Hh Ht Hi. pose proof (checks_hist n l Hh) as C. unfold asked in C. tcases Ht; split_log Hi.
  destruct Hi as [Hi|[Hi|[]]]; [discriminate|]. inversion Hi; subst.
  rewrite H, H0 in C. cbn in C. inversion C; subst. exists tx. now left.
Qed.
Lemma skip_received n l : nhist n l -> forall m, In (NSkip m) l -> exists tx, In (NWorker (LCheck (wm_id m) tx Received)) l.
Proof.
  induction 1 as [name bus bcast cf | n l n' out ws Hh IH Ht | n l ws _ IH]; [intros m []| |exact IH].
  intros m Hi. apply in_app_or in Hi. destruct Hi as [Hi|Hi].
  - apply IH in Hi. destruct Hi as (tx & Hi). exists tx. apply in_or_app; auto.
  - destruct (step_skip _ _ _ _ _ _ Hh Ht Hi) as (tx & G). exists tx. apply in_or_app; auto.
Qed.

(** ** Counting *)
Definition isb {P Q} (d : {P} + {Q}) : bool := if d then true else false.
Definition cnt {A} (f : A -> bool) (l : list A) : nat := length (filter f l).
Lemma cnt_app {A} (f : A -> bool) a b : cnt f (a ++ b) = (cnt f a + cnt f b)%nat.
Proof. unfold cnt. now rewrite filter_app, app_length. Qed.
Lemma cnt_pos {A} (f : A -> bool) l : (0 < cnt f l)%nat -> exists x, In x l /\ f x = true.
Proof.
  unfold cnt. destruct (filter f l) as [|x r] eqn:E; cbn; [lia|]. intros _. exists x. apply filter_In. rewrite E. now left.
Qed.
Lemma cnt_none {A} (f : A -> bool) l : (forall x, In x l -> f x = false) -> cnt f l = 0%nat.
Proof.
  unfold cnt. intros H. destruct (filter f l) as [|x r] eqn:E; [reflexivity|].
  assert (Hi: In x (filter f l)) by (rewrite E; now left). apply filter_In in Hi. destruct Hi as [A1 A2].
  rewrite H in A2 by assumption. discriminate.
Qed.

Definition f_hear (m : ws_message) (e : nlog) := match e with NHear (MsgWs x) => isb (ws_eq_dec x m) | _ => false end.
Definition f_write (m : ws_message) (e : nlog) := match e with NWrite (ByListener x) _ _ _ => isb (ws_eq_dec x m) | _ => false end.
Definition f_absent (m : ws_message) (e : nlog) := match e with NFound (ByListener x) _ false => isb (ws_eq_dec x m) | _ => false end.
Definition f_skip (m : ws_message) (e : nlog) := match e with NSkip x => isb (ws_eq_dec x m) | _ => false end.
Definition holding (m : ws_message) (n : node) : nat :=
  match n_listener n with LChecking x | LLookup x | LDeliver x => if ws_eq_dec x m then 1 else 0 | _ => 0 end.

Lemma returned_cnt m k j : cnt (f_hear m) (returned k j) = 0%nat /\ cnt (f_write m) (returned k j) = 0%nat /\
  cnt (f_absent m) (returned k j) = 0%nat /\ cnt (f_skip m) (returned k j) = 0%nat.
Proof. unfold returned. destruct (j_phase j); auto. Qed.
Lemma worker_cnt m es : cnt (f_hear m) (map NWorker es) = 0%nat /\ cnt (f_write m) (map NWorker es) = 0%nat /\
  cnt (f_absent m) (map NWorker es) = 0%nat /\ cnt (f_skip m) (map NWorker es) = 0%nat.
Proof. induction es as [|e es IH]; auto. Qed.

Lemma step_counts n n' out ws m : ntrans n n' out ws ->
  (holding m n + cnt (f_hear m) out = cnt (f_write m) out + cnt (f_absent m) out + cnt (f_skip m) out + holding m n')%nat.
Proof.
  intros Ht. tcases Ht;
    try (match goal with |- context [?o ++ returned ?k ?j] =>
      rewrite !cnt_app; destruct (returned_cnt m k j) as (-> & -> & -> & ->) end);
    try (match goal with |- context [map NWorker ?es] => destruct (worker_cnt m es) as (-> & -> & -> & ->) end);
    unfold holding; cbn; try match goal with E : n_listener n = _ |- _ => rewrite E; cbn end;
    try (match goal with |- context [ws_eq_dec ?a ?b] => destruct (ws_eq_dec a b) end; cbn); try lia; destruct (n_listener n); lia.
Qed.

Lemma counts n l m : nhist n l ->
  (cnt (f_hear m) l = cnt (f_write m) l + cnt (f_absent m) l + cnt (f_skip m) l + holding m n)%nat.
Proof.
  induction 1 as [name bus bcast cf | n l n' out ws Hh IH Ht | n l ws _ IH]; [reflexivity| |exact IH].
  pose proof (step_counts _ _ _ _ m Ht). rewrite !cnt_app. lia.
Qed.

(** ** After the write *)
Definition acked (m : ws_message) (n : node) (l : list nlog) : Prop :=
  n_listener n = LAck m \/ In (NOut (ByListener m) (MsgAck (wm_source m) (wm_id m))) l \/ In (NOutFail (ByListener m)) l \/ n_bcast n = false.
Lemma acked_hist n l : nhist n l -> forall m c t ok, In (NWrite (ByListener m) c t ok) l -> acked m n l.
Proof.
  induction 1 as [name bus bcast cf | n l n' out ws Hh IH Ht | n l ws _ IH]; [intros m c t ok []| |exact IH].
  intros m c t ok Hi. destruct (ntrans_static _ _ _ _ Ht) as (_ & _ & Eb & _). apply in_app_or in Hi. destruct Hi as [Hi|Hi].
  - apply IH in Hi. unfold acked in *. rewrite Eb. destruct Hi as [Hi|[Hi|[Hi|Hi]]];
      [|right; left; apply in_or_app; auto|right; right; left; apply in_or_app; auto|auto].
    tcases Ht; try (now left); try (cbn in *; congruence); rewrite H in Hi; inversion Hi; subst.
    + right. left. apply in_or_app. right. now left.
    + right. right. left. apply in_or_app. right. now left.
    + auto.
  - left. tcases Ht; split_log Hi; destruct Hi as [Hi|[]]; inversion Hi; subst; reflexivity.
Qed.

(** ** Acknowledgements heard while the tracker runs are recorded *)
Lemma heard_received n l : nhist n l -> forall a node id b, l = a ++ NHear (MsgAck node id) :: b -> In NStarted a ->
  exists w, In (NInbox w (MStatus id Received)) l.
Proof.
  induction 1 as [name bus bcast cf | n l n' out ws Hh IH Ht | n l ws _ IH]; [intros [|] ? ? ? X; discriminate X| |exact IH].
  intros a node id b E Hs. apply app_split_cases in E. destruct E as [(r & E & _)|(o1 & -> & E)].
  - destruct (IH _ _ _ _ E Hs) as (w & Hw). exists w. apply in_or_app; auto.
  - assert (Hi: In (NHear (MsgAck node id)) out) by (rewrite E; apply in_or_app; right; now left).
    assert (St: n_started n = true).
    { apply (started_log n l Hh). apply in_app_or in Hs. destruct Hs as [Hs|Hs]; [exact Hs|exfalso].
      assert (Hx: In NStarted out) by (rewrite E; apply in_or_app; now left). clear E Hs.
      tcases Ht; split_log Hi; split_log Hx. }
    tcases Ht; split_log Hi; cbn in Hi.
    + destruct Hi as [Hi|[Hi|[]]]; try discriminate. inversion Hi; subst. eexists. apply in_or_app. right. right. now left.
    + congruence.
Qed.

(** ** Waits *)
Definition waits_of (n : node) (id : string) (tx : nat) : Prop :=
  In (MWait id tx) (n_inbox n) \/ In (id, tx) (w_waits (n_worker n)).

Lemma quiet_waits cf w ev w' es : wstep cf w ev = Some (w', es) -> forallb quiet es = true ->
  (forall m now, ev <> WRecv m now) -> w_waits w' = w_waits w.
Proof.
  intros H Q Hr. destruct ev as [m now|now| | | |i]; [now destruct (Hr m now)| | | | |]; cbn in H.
  - destruct (w_ticker w); inversion H; reflexivity.
  - destruct (w_ticker w); inversion H; reflexivity.
  - destruct (w_ticker w) as [| |[|a r]|]; inversion H; reflexivity.
  - destruct (w_ticker w); inversion H; reflexivity.
  - destruct (nth_error (w_waits w) i) as [[id tx]|]; [|discriminate]. destruct (wait_answer (w_acks w) id); inversion H; subst; [discriminate Q|reflexivity].
Qed.

Lemma remove_nth_In {A} (x : A) i l : In x (remove_nth i l) -> In x l.
Proof. revert i. induction l as [|y l IH]; intros [|i] H; cbn in *; auto. destruct H; eauto. Qed.

Lemma job_kept n n' out ws k j : ntrans n n' out ws -> nth_error (n_jobs n) k = Some j ->
  exists j', nth_error (n_jobs n') k = Some j' /\ j_id j' = j_id j.
Proof.
  intros Ht Hj. destruct (job_step _ _ _ _ k Ht) as [A B|c id text inform wait A B C|j0 sn p l0 A B C D E|j0 st id A B C D E].
  - rewrite A. eauto.
  - exfalso. subst k. rewrite (proj2 (nth_error_None _ _)) in Hj by lia. discriminate.
  - rewrite C. assert (j0 = j) by congruence. subst. eauto.
  - rewrite C. assert (j0 = j) by congruence. subst. eauto.
Qed.

Lemma step_waits n n' out ws id tx : ntrans n n' out ws -> waits_of n' id tx ->
  waits_of n id tx \/ (exists j, nth_error (n_jobs n) tx = Some j /\ j_id j = id) \/
  (exists j, n_consumer n = CSend j /\ j_phase j = PRegister).
Proof.
  unfold waits_of. intros Ht. tcases Ht; cbn; auto; intros W;
    try (match goal with E : n_inbox n = _ |- _ => rewrite E end); cbn;
    try (match goal with E : wstep _ _ (WRecv _ _) = _ |- _ => cbn in E; inversion E; subst; clear E; cbn in W end);
    rewrite ?in_app_iff in W; cbn in W; try (intuition congruence).
  - destruct W as [[W|[W|[]]]|W]; auto. inversion W; subst. right. left. eauto.
  - rewrite (quiet_waits _ _ _ _ _ H H1 H0) in W. auto.
  - cbn in H. destruct (w_ticker (n_worker n)) as [| |[|a0 r]|]; inversion H; subst; auto.
  - cbn in H. rewrite H0 in H. destruct (wait_answer _ _); inversion H; subst. cbn in W.
    destruct W as [W|W]; auto. apply remove_nth_In in W. auto.
  - cbn in H. rewrite H0 in H. destruct (wait_answer _ _); inversion H; subst. cbn in W.
    destruct W as [W|W]; auto. apply remove_nth_In in W. auto.
  - destruct W as [[W|[W|[]]]|W]; auto. right. right. eauto.
Qed.

Lemma waits_hist n l : nhist n l -> forall id tx, waits_of n id tx -> exists j, nth_error (n_jobs n) tx = Some j /\ j_id j = id.
Proof.
  induction 1 as [name bus bcast cf | n l n' out ws Hh IH Ht | n l ws _ IH]; [intros id tx [[]|[]]| |exact IH].
  intros id tx W. assert (G: exists j, nth_error (n_jobs n) tx = Some j /\ j_id j = id).
  { destruct (step_waits _ _ _ _ _ _ Ht W) as [G|[G|(j & Hc & Hp)]]; auto.
    destruct (resend_hist n l Hh) as (_ & _ & I3). apply I3 in Hc. intuition. }
  destruct G as (j & Hj & <-). eapply job_kept; eauto.
Qed.

Lemma tagged k e l : In e l -> of_call k e = true -> In e (filter (of_call k) l).
Proof. intros. apply filter_In. auto. Qed.

Lemma before_wait n l k j : nhist n l -> nth_error (n_jobs n) k = Some j ->
  match j_phase j with PAwait | PDone _ => True | _ => forall id, ~ In (NInbox (ByCall k) (MWait id k)) l end.
Proof.
  intros Hh Hj. destruct (calls_hist n l Hh) as [IJ _]. apply IJ in Hj. destruct Hj as (rec & reg & _ & _ & _ & H). cbn zeta in H.
  destruct (j_phase j); auto; intros id Hi; apply (tagged k) in Hi; try (cbn; apply Nat.eqb_refl).
  - destruct H as [H _]. rewrite H in Hi. cbn in Hi. intuition discriminate.
  - rewrite H in Hi. cbn in Hi. intuition discriminate.
  - destruct H as [H _]. rewrite H in Hi. cbn in Hi. intuition discriminate.
  - destruct H as [H _]. rewrite H in Hi. destruct rec; cbn in Hi; intuition discriminate.
  - destruct H as [H _]. rewrite H in Hi. destruct rec; cbn in Hi; intuition discriminate.
Qed.
Lemma before_return n l k j : nhist n l -> nth_error (n_jobs n) k = Some j ->
  match j_phase j with PDone _ => True | _ => forall r, ~ In (NReturn k r) l end.
Proof.
  intros Hh Hj. destruct (calls_hist n l Hh) as [IJ _]. apply IJ in Hj. destruct Hj as (rec & reg & _ & _ & _ & H). cbn zeta in H.
  destruct (j_phase j); auto; intros r Hi; apply (tagged k) in Hi; try (cbn; apply Nat.eqb_refl).
  - destruct H as [H _]. rewrite H in Hi. cbn in Hi. intuition discriminate.
  - rewrite H in Hi. cbn in Hi. intuition discriminate.
  - destruct H as [H _]. rewrite H in Hi. cbn in Hi. intuition discriminate.
  - destruct H as [H _]. rewrite H in Hi. destruct rec; cbn in Hi; intuition discriminate.
  - destruct H as [H _]. rewrite H in Hi. destruct rec; cbn in Hi; intuition discriminate.
  - destruct H as [H _]. rewrite H in Hi. destruct rec; cbn in Hi; intuition discriminate.
Qed.
Lemma await_id n l k j id : nhist n l -> nth_error (n_jobs n) k = Some j -> j_phase j = PAwait ->
  In (NInbox (ByCall k) (MWait id k)) l -> id = j_id j.
Proof.
  intros Hh Hj Hp Hi. destruct (calls_hist n l Hh) as [IJ _]. apply IJ in Hj. destruct Hj as (rec & reg & _ & _ & _ & H). cbn zeta in H.
  rewrite Hp in H. destruct H as [H _]. apply (tagged k) in Hi; [|cbn; apply Nat.eqb_refl]. rewrite H in Hi.
  destruct rec; cbn in Hi; intuition (try discriminate); match goal with E : _ = NInbox _ (MWait id k) |- _ => inversion E; reflexivity end.
Qed.

(** A waited call that succeeds was told "received" by the tracker. *)
Lemma waited_received n l : nhist n l -> forall k id, In (NInbox (ByCall k) (MWait id k)) l -> In (NReturn k RSent) l ->
  In (NWorker (LWait id k Received)) l.
Proof.
  induction 1 as [name bus bcast cf | n l n' out ws Hh IH Ht | n l ws _ IH]; [intros k id []| |exact IH].
  intros k id Hi Hr. apply in_app_or in Hi. apply in_app_or in Hr.
  destruct (job_step _ _ _ _ k Ht) as [A B|c id0 text inform wait A B C|j sn p l0 A B C D E|j st id0 A B C D E].
  - assert (N: forall e, of_call k e = true -> ~ In e out).
    { intros e He Hx. apply (tagged k) in Hx; [|exact He]. rewrite B in Hx. destruct Hx. }
    destruct Hi as [Hi|Hi]; [|exfalso; eapply N; [|exact Hi]; cbn; apply Nat.eqb_refl].
    destruct Hr as [Hr|Hr]; [|exfalso; eapply N; [|exact Hr]; cbn; apply Nat.eqb_refl].
    apply in_or_app. left. auto.
  - subst out. destruct Hi as [Hi|[Hi|[]]]; [|discriminate]. destruct Hr as [Hr|[Hr|[]]]; [|discriminate]. apply in_or_app. auto.
  - exfalso. pose proof (before_wait _ _ _ _ Hh A) as BW. pose proof (before_return _ _ _ _ Hh A) as BR.
    destruct B as [B|B|B|okb B|B|B|B|B|B|B]; rewrite B in BW, BR; subst out;
      (destruct Hi as [Hi|Hi]; [now apply BW in Hi|]); cbn in Hi; try (destruct (j_wait j); cbn in Hi); try (intuition discriminate).
    all: destruct Hr as [Hr|Hr]; [now apply BR in Hr|]; cbn in Hr; intuition discriminate.
  - pose proof (before_return _ _ _ _ Hh A) as BR. rewrite B in BR.
    destruct (waits_hist n l Hh id0 k (or_intror D)) as (j2 & Hj2 & E2). assert (j2 = j) by congruence. subst j2.
    destruct Hr as [Hr|Hr]; [now apply BR in Hr|]. rewrite E in Hr, Hi. destruct Hr as [Hr|[Hr|[]]]; [discriminate|].
    inversion Hr as [Er]. destruct Hi as [Hi|[Hi|[Hi|[]]]]; try discriminate.
    apply (await_id n l k j) in Hi; auto. subst id id0. apply in_or_app. right. rewrite E. left.
    destruct st; try discriminate Er. reflexivity.
Qed.
