(** Lemmas about the tasks of a node that write to sockets. *)
From Verif Require Import Base Value Bytes WsModel WsSpec WsProofs WsProps LostModel StallModel StallSpec.
Local Open Scope list_scope.

Section S.
Variable parse : text -> option value.
Variable key : text.
Variable routes : text -> bool.
Notation step := (step parse key routes).
Notation run := (run parse key routes).
Notation nstep := (nstep parse key routes).
Notation nrun := (nrun parse key routes).

Lemma sockets_app a b : sockets (a ++ b) = sockets a ++ sockets b.
Proof. induction a as [|[e|i|i|sd f] a IH]; cbn; [reflexivity|now f_equal|exact IH..]. Qed.
Lemma sockets_ws es : sockets (map Ws es) = es.
Proof. induction es as [|e es IH]; cbn; [reflexivity|now f_equal]. Qed.
Lemma sockets_does sd fs : sockets (map (Does sd) fs) = [].
Proof. induction fs as [|f fs IH]; cbn; [reflexivity|exact IH]. Qed.
Lemma in_sockets e tr : In e (sockets tr) <-> In (Ws e) tr.
Proof.
  induction tr as [|[x|i|i|sd f] tr IH]; cbn; [tauto|rewrite IH; split; intros [H|H]; auto; left; congruence|..];
  (rewrite IH; split; [auto|intros [H|H]; [discriminate|exact H]]).
Qed.
Lemma taken_app sd a b : taken sd (a ++ b) = taken sd a ++ taken sd b.
Proof. induction a as [|[e|i|i|sd' f] a IH]; cbn; auto. destruct (same_side sd (side_of i)); cbn; [now f_equal|exact IH]. Qed.
Lemma arrived_app sd a b : arrived sd (a ++ b) = arrived sd a ++ arrived sd b.
Proof. induction a as [|[e|i|i|sd' f] a IH]; cbn; auto. destruct (same_side sd (side_of i)); cbn; [now f_equal|exact IH]. Qed.
Lemma taken_ws sd es : taken sd (map Ws es) = []. Proof. induction es; auto. Qed.
Lemma arrived_ws sd es : arrived sd (map Ws es) = []. Proof. induction es; auto. Qed.
Lemma taken_does sd sd' es : taken sd (map (Does sd') es) = []. Proof. induction es; auto. Qed.
Lemma arrived_does sd sd' es : arrived sd (map (Does sd') es) = []. Proof. induction es; auto. Qed.
Lemma same_side_spec a b : same_side a b = true <-> a = b.
Proof. destruct a, b; cbn; split; congruence. Qed.
Lemma set_same n ws sd l : n_loop (set_loop n ws sd l) sd = l.
Proof. destruct sd; reflexivity. Qed.
Lemma set_other n ws sd l sd' : sd' <> sd -> n_loop (set_loop n ws sd l) sd' = n_loop n sd'.
Proof. destruct sd, sd'; try reflexivity; intros N; now destruct N. Qed.

Lemma nrun_app n a n1 b n2 : nrun n a n1 -> nrun n1 b n2 -> nrun n (a ++ b) n2.
Proof. intros H1 H2. induction H2 as [|n1 tr t es t' H IH Hs]; [now rewrite app_nil_r|]. rewrite app_assoc. econstructor; eauto. Qed.
Lemma nrun_split n0 tr n : nrun n0 tr n -> forall a e d, tr = a ++ e :: d ->
  exists a0 n1 es n2 x y, nrun n0 a0 n1 /\ nstep n1 es n2 /\ es = x ++ e :: y /\ a = a0 ++ x.
Proof.
  induction 1 as [|n0 tr n1 es n2 H IH Hs]; intros a e d E; [now destruct a|].
  apply app_eq_app in E. destruct E as (l & [[E1 E2]|[E1 E2]]).
  - destruct l as [|e' l].
    + cbn in E2. rewrite app_nil_r in E1. subst a. exists tr, n1, es, n2, [], d. subst es. repeat split; auto. now rewrite app_nil_r.
    + cbn in E2. injection E2 as <- E2. now apply (IH a e l E1).
  - subst a. exists tr, n1, es, n2, l, d. repeat split; auto.
Qed.
(** Sessions and sockets behave as in [WsModel]. *)
Lemma nstep_run n es n' : nstep n es n' -> run (n_ws n) (sockets es) (n_ws n').
Proof.
  intros H. destruct H as [n es ws S|n i|n i q dup L|n sd q f r L|n sd q conn msg a b r L|n sd q conn msg a b r j L J|n sd q conn msg a b r j L J];
    cbn [n_ws set_loop]; rewrite ?sockets_ws, ?sockets_does; try apply R_refl.
  - apply (R_step _ _ _ _ [] (n_ws n) es ws); [apply R_refl|exact S].
  - apply (R_step _ _ _ _ [] (n_ws n) [ESend _ conn msg] _); [apply R_refl|]. apply S_send.
Qed.
Lemma proj n tr n' : nrun n tr n' -> run (n_ws n) (sockets tr) (n_ws n').
Proof.
  induction 1 as [|n tr n1 es n2 H IH Hs]; [apply R_refl|]. rewrite sockets_app. eapply run_app; [exact IH|]. now apply nstep_run.
Qed.
Lemma nrun_winv tr n : nrun start tr n -> winv (n_ws n).
Proof. intros H. exact (run_winv _ _ _ _ _ _ (proj _ _ _ H) winv_init). Qed.

(** What a step does to a task whose job is not done *)
Lemma loop_step n es n' sd j t : nstep n es n' -> l_job (n_loop n sd) = Some (j, t) -> s_jobs (n_ws n) j <> Sent -> s_jobs (n_ws n) j <> NotHere ->
  l_job (n_loop n' sd) = Some (j, t) /\ taken sd es = [] /\ forall f, ~ In (Does sd f) es.
Proof.
  intros H L N1 N2.
  destruct H as [n es ws S|n i|n i q dup Q|n sd' q f r Q|n sd' q conn msg a b r Q|n sd' q conn msg a b r j' Q J|n sd' q conn msg a b r j' Q J].
  - cbn. split; [exact L|]. split; [apply taken_ws|]. intros f Hin. apply in_map_iff in Hin. destruct Hin as (x & Hx & _). discriminate.
  - split; [|split; [reflexivity|intros f [Hf|[]]; discriminate]].
    destruct (same_side sd (side_of i)) eqn:E; [apply same_side_spec in E; subst sd; rewrite set_same; exact L|].
    rewrite set_other; [exact L|]. intros ->. rewrite (proj2 (same_side_spec _ _) eq_refl) in E. discriminate.
  - assert (E : sd <> side_of i) by (intros ->; rewrite Q in L; discriminate). rewrite set_other by exact E. split; [exact L|].
    split; [|intros f [Hf|[]]; discriminate]. cbn. destruct (same_side sd (side_of i)) eqn:E'; [|reflexivity]. now apply same_side_spec in E'.
  - assert (E : sd <> sd') by (intros ->; rewrite Q in L; discriminate). rewrite set_other by exact E. split; [exact L|].
    split; [reflexivity|]. intros f' [Hf|[]]. congruence.
  - assert (E : sd <> sd') by (intros ->; rewrite Q in L; discriminate). rewrite set_other by exact E. split; [exact L|].
    split; [reflexivity|]. intros f' [Hf|[]]. discriminate.
  - assert (E : sd <> sd') by (intros ->; rewrite Q in L; injection L as <- <-; contradiction). rewrite set_other by exact E. split; [exact L|].
    split; [apply taken_does|]. intros f' Hin. apply in_map_iff in Hin. destruct Hin as (x & Hx & _). congruence.
  - assert (E : sd <> sd') by (intros ->; rewrite Q in L; injection L as <- <-; contradiction). rewrite set_other by exact E. split; [exact L|].
    split; [apply taken_does|]. intros f' Hin. apply in_map_iff in Hin. destruct Hin as (x & Hx & _). congruence.
Qed.
Lemma queued_run s tr s' j k m : winv s -> run s tr s' -> s_jobs s j = Queued k m -> ~ In (EDeliver j k m) tr -> s_jobs s' j = Queued k m.
Proof.
  intros I H J. induction H as [|s tr s1 es s2 H IH Hs]; intros N; [exact J|].
  rewrite in_app_iff in N. assert (J1 : s_jobs s1 j = Queued k m) by (apply IH; auto).
  destruct (queued_step _ _ _ _ _ _ _ _ _ (run_winv _ _ _ _ _ _ H I) Hs J1) as [X|(_ & -> & _)]; [exact X|]. destruct N. right. now left.
Qed.
Lemma silent_app k a b : silent k (a ++ b) -> silent k a /\ silent k b.
Proof. intros (H1 & H2). repeat split; intros; intros X; try (apply (H1 f)); try apply H2; rewrite in_app_iff; auto. Qed.
(** While the client is silent the task does nothing. *)
Lemma stalled n tr n' sd j t k m : winv (n_ws n) -> l_job (n_loop n sd) = Some (j, t) -> s_jobs (n_ws n) j = Queued k m ->
  se_phase (s_ses (n_ws n) k) = Reading -> nrun n tr n' -> silent k tr ->
  halted sd tr /\ l_job (n_loop n' sd) = Some (j, t) /\ s_jobs (n_ws n') j = Queued k m /\ se_phase (s_ses (n_ws n') k) = Reading.
Proof.
  intros I L J P H. revert I L J P. induction H as [|n tr n1 es n2 H IH Hs]; intros I L J P Q.
  - split; [split; [reflexivity|intros f []]|auto].
  - apply silent_app in Q. destruct Q as (Q1 & Q2). destruct (IH I L J P Q1) as ((T1 & D1) & L1 & J1 & P1). clear IH.
    assert (I1 : winv (n_ws n1)) by (exact (run_winv _ _ _ _ _ _ (proj _ _ _ H) I)).
    destruct (loop_step _ _ _ sd j t Hs L1) as (L2 & T2 & D2); [congruence..|].
    assert (F1 : forall f, ~ In (EFrame k f) (sockets es)) by (intros f X; apply (proj1 Q2 f); now apply in_sockets).
    assert (F2 : ~ In (EGone k) (sockets es)) by (intros X; apply (proj2 Q2); now apply in_sockets).
    destruct (reading_run _ _ _ _ _ _ k I1 P1 (nstep_run _ _ _ Hs) F1 F2) as (P2 & D).
    split; [split; [now rewrite taken_app, T1, T2|]|split; [exact L2|split; [|exact P2]]].
    + intros f X. rewrite in_app_iff in X. destruct X as [X|X]; [now apply (D1 f)|now apply (D2 f)].
    + apply (queued_run _ _ _ _ _ _ I1 (nstep_run _ _ _ Hs) J1 (D j m)).
Qed.
(** Items are taken up in the order in which they arrive. *)
Lemma in_order tr n : nrun start tr n -> forall sd, arrived sd tr = taken sd tr ++ l_queue (n_loop n sd).
Proof.
  intros H. remember start as n0 eqn:E0. induction H as [|n tr n1 es n2 H IH Hs]; subst; intros sd; [reflexivity|].
  rewrite arrived_app, taken_app, (IH eq_refl sd). clear IH.
  destruct Hs as [n es ws S|n i|n i q dup Q|n sd' q f r Q|n sd' q conn msg a b r Q|n sd' q conn msg a b r j' Q J|n sd' q conn msg a b r j' Q J].
  - rewrite arrived_ws, taken_ws, !app_nil_r. reflexivity.
  - cbn [arrived taken]. rewrite !app_nil_r. destruct (same_side sd (side_of i)) eqn:E.
    + apply same_side_spec in E. subst sd. rewrite set_same. cbn. now rewrite app_assoc.
    + rewrite app_nil_r, set_other; [reflexivity|]. intros ->. rewrite (proj2 (same_side_spec _ _) eq_refl) in E. discriminate.
  - cbn [arrived taken]. rewrite !app_nil_r. destruct (same_side sd (side_of i)) eqn:E.
    + apply same_side_spec in E. subst sd. rewrite set_same, Q. cbn. now rewrite <- app_assoc.
    + rewrite app_nil_r, set_other; [reflexivity|]. intros ->. rewrite (proj2 (same_side_spec _ _) eq_refl) in E. discriminate.
  - cbn [arrived taken]. rewrite !app_nil_r. destruct (same_side sd sd') eqn:E.
    + apply same_side_spec in E. subst sd. now rewrite set_same, Q.
    + rewrite set_other; [reflexivity|]. intros ->. rewrite (proj2 (same_side_spec _ _) eq_refl) in E. discriminate.
  - cbn [arrived taken]. rewrite !app_nil_r. destruct (same_side sd sd') eqn:E.
    + apply same_side_spec in E. subst sd. now rewrite set_same, Q.
    + rewrite set_other; [reflexivity|]. intros ->. rewrite (proj2 (same_side_spec _ _) eq_refl) in E. discriminate.
  - rewrite arrived_does, taken_does, !app_nil_r. destruct (same_side sd sd') eqn:E.
    + apply same_side_spec in E. subst sd. now rewrite set_same, Q.
    + rewrite set_other; [reflexivity|]. intros ->. rewrite (proj2 (same_side_spec _ _) eq_refl) in E. discriminate.
  - rewrite arrived_does, taken_does, !app_nil_r. destruct (same_side sd sd') eqn:E.
    + apply same_side_spec in E. subst sd. now rewrite set_same, Q.
    + rewrite set_other; [reflexivity|]. intros ->. rewrite (proj2 (same_side_spec _ _) eq_refl) in E. discriminate.
Qed.

(** Where the tasks at hand come from *)
Record tinv (tr : list nevent) (n : node) : Prop := mk_tinv {
  t_todo : forall sd t, In t (l_todo (n_loop n sd)) -> exists i dup, In (Takes i) tr /\ side_of i = sd /\ In t (tasks_of dup i);
  t_job : forall sd j t, l_job (n_loop n sd) = Some (j, t) ->
    (exists i dup, In (Takes i) tr /\ side_of i = sd /\ In t (tasks_of dup i)) /\
    exists conn msg a b, t = Write conn msg a b /\ In (Ws (ESend j conn msg)) tr }.
Lemma tinv_run tr n : nrun start tr n -> tinv tr n.
Proof.
  intros H. remember start as n0 eqn:E0. induction H as [|n tr n1 es n2 H IH Hs]; subst.
  - split; [intros sd t []|discriminate].
  - destruct (IH eq_refl) as [T1 T2]. clear IH.
    assert (M1 : forall sd t, (exists i dup, In (Takes i) tr /\ side_of i = sd /\ In t (tasks_of dup i)) -> exists i dup, In (Takes i) (tr ++ es) /\ side_of i = sd /\ In t (tasks_of dup i)).
    { intros sd t (i & dup & A & B & C). exists i, dup. rewrite in_app_iff. auto. }
    assert (M2 : forall j t, (exists conn msg a b, t = Write conn msg a b /\ In (Ws (ESend j conn msg)) tr) -> exists conn msg a b, t = Write conn msg a b /\ In (Ws (ESend j conn msg)) (tr ++ es)).
    { intros j t (c & m & a & b & A & B). exists c, m, a, b. rewrite in_app_iff. auto. }
    assert (K1 : forall sd t, In t (l_todo (n_loop n1 sd)) -> exists i dup, In (Takes i) (tr ++ es) /\ side_of i = sd /\ In t (tasks_of dup i)) by (intros; eauto).
    assert (K2 : forall sd j t, l_job (n_loop n1 sd) = Some (j, t) ->
      (exists i dup, In (Takes i) (tr ++ es) /\ side_of i = sd /\ In t (tasks_of dup i)) /\
      exists conn msg a b, t = Write conn msg a b /\ In (Ws (ESend j conn msg)) (tr ++ es)).
    { intros sd j t L. destruct (T2 sd j t L). split; [now apply M1|now apply M2]. }
    assert (Sp : forall x y : side, {x = y} + {x <> y}) by decide equality.
    destruct Hs as [n es ws S|n i|n i q dup Q|n sd' q f r Q|n sd' q conn msg a b r Q|n sd' q conn msg a b r j' Q J|n sd' q conn msg a b r j' Q J].
    + split; [exact K1|exact K2].
    + split; intros sd; destruct (Sp sd (side_of i)) as [->|N]; rewrite ?set_same, ?set_other by exact N; auto; cbn; auto.
    + split; intros sd; destruct (Sp sd (side_of i)) as [->|N]; rewrite ?set_same, ?set_other by exact N; auto; cbn; [|discriminate].
      intros t Ht. exists i, dup. rewrite in_app_iff. split; [right; now left|auto].
    + split; intros sd; destruct (Sp sd sd') as [->|N]; rewrite ?set_same, ?set_other by exact N; auto; cbn; [|discriminate].
      intros t Ht. apply K1. rewrite Q. now right.
    + split; intros sd; destruct (Sp sd sd') as [->|N]; rewrite ?set_same, ?set_other by exact N; auto; cbn.
      * intros t Ht. apply K1. rewrite Q. now right.
      * intros j t [= <- <-]. split; [apply K1; rewrite Q; now left|]. exists conn, msg, a, b. rewrite in_app_iff. split; [reflexivity|right; now left].
    + split; intros sd; destruct (Sp sd sd') as [->|N]; rewrite ?set_same, ?set_other by exact N; auto; cbn; [|discriminate].
      intros t Ht. apply K1. now rewrite Q.
    + split; intros sd; destruct (Sp sd sd') as [->|N]; rewrite ?set_same, ?set_other by exact N; auto; cbn; [|discriminate].
      intros t Ht. apply K1. now rewrite Q.
Qed.
(** A message that has been sent was delivered; what is sent under a number is sent once. *)
Lemma sent_delivered tr s : run init tr s -> forall j, s_jobs s j = Sent -> exists k m, In (EDeliver j k m) tr.
Proof.
  intros H. remember init as s0 eqn:E0. induction H as [|s tr s1 es s2 H IH Hs]; subst; intros j J; [discriminate|].
  destruct (job_step _ _ _ _ _ _ j Hs) as [(X & _)|[(id & m & _ & X & _)|[(id & m & k & _ & _ & X & _)|[(X & _)|(k & m & _ & _ & ->)]]]]; try congruence.
  - rewrite X in J. destruct (IH eq_refl j J) as (k & m & D). exists k, m. rewrite in_app_iff. auto.
  - exists k, m. rewrite in_app_iff. right. now left.
Qed.
Lemma send_number s es s' j id m : step s es s' -> In (ESend j id m) es -> es = [ESend j id m] /\ j = s_next_job s /\ s_next_job s' = S (s_next_job s).
Proof. intros [] Hin; cbn in Hin; repeat destruct Hin as [Hin|Hin]; try discriminate; try contradiction; injection Hin as <- <- <-; cbn; auto. Qed.
Lemma next_job_mono s es s' : step s es s' -> s_next_job s <= s_next_job s'.
Proof. intros []; cbn; lia. Qed.
Lemma send_once tr s : run init tr s -> forall j id m, In (ESend j id m) tr -> j < s_next_job s /\ forall id' m', In (ESend j id' m') tr -> id' = id /\ m' = m.
Proof.
  intros H. remember init as s0 eqn:E0. induction H as [|s tr s1 es s2 H IH Hs]; subst; intros j id m Hin; [destruct Hin|].
  rewrite in_app_iff in Hin. pose proof (next_job_mono _ _ _ Hs). destruct Hin as [Hin|Hin].
  - destruct (IH eq_refl j id m Hin) as (L & U). split; [lia|]. intros id' m' X. rewrite in_app_iff in X. destruct X as [X|X]; [now apply U|].
    destruct (send_number _ _ _ _ _ _ Hs X) as (_ & -> & _). lia.
  - destruct (send_number _ _ _ _ _ _ Hs Hin) as (-> & -> & N). split; [lia|]. intros id' m' X. rewrite in_app_iff in X. destruct X as [X|[X|[]]]; [|split; congruence].
    destruct (IH eq_refl _ id' m' X) as (L & _). lia.
Qed.
Lemma written_addressee tr n j conn msg : nrun start tr n -> In (Ws (ESend j conn msg)) tr -> s_jobs (n_ws n) j = Sent ->
  exists k, In (Ws (EDeliver j k msg)) tr /\ In (Ws (EOpen k conn)) tr.
Proof.
  intros H S J. pose proof (proj _ _ _ H) as R. destruct (sent_delivered _ _ R j J) as (k & m & D). apply in_split in D. destruct D as (a & d & E).
  rewrite E in R. destruct (C71_addressee _ _ _ _ _ _ _ _ _ R) as ((id & A & O) & _). rewrite <- E in R.
  destruct (send_once _ _ R j conn msg) as (_ & U); [now apply in_sockets|].
  destruct (U id m) as [-> ->]; [rewrite E, in_app_iff; auto|].
  exists k. split; apply in_sockets; rewrite E, in_app_iff; cbn; auto.
Qed.

(** What a task has done when it has done with a list of tasks *)
Definition accomplished (sd : side) (m : list nevent) (t : task) : Prop :=
  match t with
  | Do f => In (Does sd f) m
  | Write conn msg a b => exists j, In (Ws (ESend j conn msg)) m /\
      ((exists k, In (Ws (EDeliver j k msg)) m /\ forall f, In f a -> In (Does sd f) m) \/ (forall f, In f b -> In (Does sd f) m))
  end.
Lemma accomplished_app sd m es t : accomplished sd m t -> accomplished sd (m ++ es) t.
Proof.
  destruct t as [conn msg a b|f]; cbn.
  - intros (j & S & [(k & D & A)|B]); exists j; rewrite in_app_iff; split; auto.
    + left. exists k. rewrite in_app_iff. split; auto. intros f F. rewrite in_app_iff. auto.
    + right. intros f F. rewrite in_app_iff. auto.
  - rewrite in_app_iff. auto.
Qed.
(** The job of a task is one that was sent and not yet delivered in the part of the history before. *)
Lemma job_fate tr s tr' s' j conn m : run init tr s -> run s tr' s' -> s_next_job s <= j -> In (ESend j conn m) tr' ->
  s_jobs s' j = Sent -> exists k, In (EDeliver j k m) tr'.
Proof.
  intros H H' L S J. pose proof (run_app _ _ _ _ _ _ _ _ H H') as R. destruct (sent_delivered _ _ R j J) as (k & m' & D).
  pose proof D as D0. apply in_split in D0. destruct D0 as (x & y & E). rewrite E in R.
  destruct (C71_addressee _ _ _ _ _ _ _ _ _ R) as ((id & A & O) & _). rewrite <- E in R.
  destruct (send_once _ _ R j conn m) as (_ & U); [rewrite in_app_iff; auto|].
  destruct (U id m') as [_ ->]; [rewrite E, in_app_iff; auto|].
  exists k. rewrite in_app_iff in D. destruct D as [D|D]; [|exact D].
  destruct (sends _ _ _ _ _ H j) as (_ & _ & C). apply C in D. rewrite (w_jobs _ (run_winv _ _ _ _ _ _ H winv_init) j L) in D. discriminate.
Qed.
Lemma next_job_run s tr s' : run s tr s' -> s_next_job s <= s_next_job s'.
Proof. induction 1 as [|s tr s1 es s2 H IH Hs]; [lia|]. apply next_job_mono in Hs. lia. Qed.
Lemma progress tr0 n0 sd q T : nrun start tr0 n0 -> n_loop n0 sd = mk_loop q T None -> forall m n, nrun n0 m n -> taken sd m = [] ->
  exists T1 T2, Forall (accomplished sd m) T1 /\ l_todo (n_loop n sd) = T2 /\
    match l_job (n_loop n sd) with
    | None => T = T1 ++ T2
    | Some (j, t) => T = T1 ++ t :: T2 /\ s_next_job (n_ws n0) <= j /\ exists conn msg a b, t = Write conn msg a b /\ In (Ws (ESend j conn msg)) m
    end.
Proof.
  intros H0 L0 m n H. induction H as [|n0 m n1 es n2 H IH Hs]; intros Tk.
  - exists [], T. rewrite L0. cbn. auto.
  - rewrite taken_app in Tk. apply app_eq_nil in Tk. destruct Tk as (Tk1 & Tk2). destruct (IH H0 L0 Tk1) as (T1 & T2 & F & E & M). clear IH.
    assert (F' : Forall (accomplished sd (m ++ es)) T1) by (eapply Forall_impl; [|exact F]; intros t; apply accomplished_app).
    assert (Keep : n_loop n2 sd = n_loop n1 sd \/ (exists i, l_todo (n_loop n2 sd) = l_todo (n_loop n1 sd) /\ l_job (n_loop n2 sd) = l_job (n_loop n1 sd) /\ i = tt) ->
      exists T1 T2, Forall (accomplished sd (m ++ es)) T1 /\ l_todo (n_loop n2 sd) = T2 /\
      match l_job (n_loop n2 sd) with
      | None => T = T1 ++ T2
      | Some (j, t) => T = T1 ++ t :: T2 /\ s_next_job (n_ws n0) <= j /\ exists conn msg a b, t = Write conn msg a b /\ In (Ws (ESend j conn msg)) (m ++ es)
      end).
    { intros K. assert (K1 : l_todo (n_loop n2 sd) = l_todo (n_loop n1 sd) /\ l_job (n_loop n2 sd) = l_job (n_loop n1 sd)).
      { destruct K as [->|(? & A & B & _)]; auto. }
      destruct K1 as (K1 & K2). rewrite K1, K2. exists T1, T2. split; [exact F'|]. split; [exact E|].
      destruct (l_job (n_loop n1 sd)) as [[j t]|]; [|exact M]. destruct M as (M1 & M2 & c & x & a & b & M3 & M4).
      split; [exact M1|]. split; [exact M2|]. exists c, x, a, b. rewrite in_app_iff. auto. }
    assert (Sp : forall x y : side, {x = y} + {x <> y}) by decide equality.
    pose proof (proj _ _ _ H0) as R0. pose proof (proj _ _ _ H) as R1.
    destruct Hs as [n1 es ws S|n1 i|n1 i q' dup Q|n1 sd' q' f r Q|n1 sd' q' conn msg a b r Q|n1 sd' q' conn msg a b r j' Q J|n1 sd' q' conn msg a b r j' Q J].
    + apply Keep. left. reflexivity.
    + apply Keep. destruct (Sp sd (side_of i)) as [->|N]; [right; exists tt; rewrite set_same; auto|left; now apply set_other].
    + apply Keep. left. apply set_other. intros ->. cbn in Tk2. rewrite (proj2 (same_side_spec _ _) eq_refl) in Tk2. discriminate.
    + destruct (Sp sd sd') as [->|N]; [|apply Keep; left; now apply set_other]. rewrite Q in E, M. cbn in E, M. subst T2.
      exists (T1 ++ [Do f]), r. rewrite set_same. cbn. rewrite <- app_assoc. split; [|auto].
      apply Forall_app. split; [exact F'|]. apply Forall_cons; [|apply Forall_nil]. cbn. rewrite in_app_iff. right. now left.
    + destruct (Sp sd sd') as [->|N]; [|apply Keep; left; now apply set_other]. rewrite Q in E, M. cbn in E, M. subst T2.
      exists T1, r. rewrite set_same. cbn. split; [exact F'|]. split; [reflexivity|]. split; [exact M|]. split; [now apply next_job_run in R1|].
      exists conn, msg, a, b. rewrite in_app_iff. split; [reflexivity|right; now left].
    + destruct (Sp sd sd') as [->|N]; [|apply Keep; left; now apply set_other]. rewrite Q in E, M. cbn in E, M. subst T2. destruct M as (M1 & M2 & c & x & a' & b' & M3 & M4).
      injection M3 as <- <- <- <-. exists (T1 ++ [Write conn msg a b]), r. rewrite set_same. cbn. rewrite <- app_assoc. split; [|auto].
      apply Forall_app. split; [exact F'|]. apply Forall_cons; [|apply Forall_nil]. cbn. exists j'. rewrite in_app_iff. split; [now left|]. left.
      destruct (job_fate _ _ _ _ _ conn msg R0 R1 M2) as (k & D); [now apply in_sockets|exact J|].
      exists k. rewrite in_app_iff. split; [left; now apply in_sockets|]. intros f Hf. rewrite in_app_iff. right. now apply in_map.
    + destruct (Sp sd sd') as [->|N]; [|apply Keep; left; now apply set_other]. rewrite Q in E, M. cbn in E, M. subst T2. destruct M as (M1 & M2 & c & x & a' & b' & M3 & M4).
      injection M3 as <- <- <- <-. exists (T1 ++ [Write conn msg a b]), r. rewrite set_same. cbn. rewrite <- app_assoc. split; [|auto].
      apply Forall_app. split; [exact F'|]. apply Forall_cons; [|apply Forall_nil]. cbn. exists j'. rewrite in_app_iff. split; [now left|]. right.
      intros f Hf. rewrite in_app_iff. right. now apply in_map.
Qed.
(** An item is done with when the next one is taken up. *)
Lemma done_with a i m i' d n : nrun start (a ++ Takes i :: m ++ Takes i' :: d) n -> side_of i' = side_of i -> taken (side_of i) m = [] ->
  exists dup, Forall (accomplished (side_of i) m) (tasks_of dup i).
Proof.
  intros H Sd Tk.
  assert (H2 : forall tr n0, nrun start tr n0 -> forall a e d, tr = a ++ e :: d ->
    exists a0 n1 es n2 x y d0, nrun start a0 n1 /\ nstep n1 es n2 /\ nrun n2 d0 n0 /\ es = x ++ e :: y /\ a = a0 ++ x /\ d = y ++ d0).
  { clear. intros tr n0 H. remember start as st eqn:Est. induction H as [|n0 tr n1 es n2 H IH Hs]; intros a e d E; [now destruct a|].
    apply app_eq_app in E. destruct E as (l & [[E1 E2]|[E1 E2]]).
    - destruct l as [|e' l].
      + cbn in E2. rewrite app_nil_r in E1. subst a. exists tr, n1, es, n2, [], d, []. subst es. repeat split; auto; [constructor|now rewrite app_nil_r|now rewrite app_nil_r].
      + cbn in E2. injection E2 as <- E2. subst d. destruct (IH Est a e l E1) as (a0 & t1 & es1 & t2 & x & y & d0 & R1 & S1 & R2 & A & B & C). exists a0, t1, es1, t2, x, y, (d0 ++ es).
        repeat split; auto; [econstructor; eauto|]. subst l. now rewrite app_assoc.
    - subst a. exists tr, n1, es, n2, l, d, []. repeat split; auto; [constructor|now rewrite app_nil_r]. }
  destruct (H2 _ _ H a _ _ eq_refl) as (a0 & n1 & es & n2 & x & y & d0 & R1 & S & R2 & E & Ea & Ed). clear H2.
  assert (X : exists q dup, es = [Takes i] /\ n_loop n2 (side_of i) = mk_loop q (tasks_of dup i) None).
  { assert (Hin : In (Takes i) es) by (rewrite E, in_app_iff; right; now left). clear - S Hin.
    destruct S; try (apply in_map_iff in Hin; destruct Hin as (? & Hx & _); discriminate); destruct Hin as [Hin|[]]; try discriminate.
    injection Hin as ->. exists q, dup. split; [reflexivity|]. apply set_same. }
  destruct X as (q & dup & -> & L2). destruct x as [|? [|]]; try discriminate. injection E as <-. cbn in Ed. subst a. rewrite app_nil_r in *.
  assert (R12 : nrun start (a0 ++ [Takes i]) n2) by (econstructor; eauto).
  exists dup.
  (* the next item *)
  clear - R12 L2 R2 Ed Sd Tk. remember (m ++ Takes i' :: d) as tr eqn:Et. rewrite <- Ed in R2. clear Ed. revert m i' d Et Sd Tk.
  induction R2 as [|n2 tr n3 es n4 R IH S]; intros m i' d Et Sd Tk; [now destruct m|].
  apply app_eq_app in Et. destruct Et as (l & [[E1 E2]|[E1 E2]]).
  - destruct l as [|e' l].
    + cbn in E2. rewrite app_nil_r in E1. subst tr.
      assert (Hin : In (Takes i') es) by (rewrite <- E2; now left).
      assert (X : n_loop n3 (side_of i') = mk_loop (l_queue (n_loop n3 (side_of i'))) [] None).
      { clear - S Hin. destruct S as [n es ws S|n x|n x q dup Q|n sd' q f r Q|n sd' q conn msg a b r Q|n sd' q conn msg a b r j' Q J|n sd' q conn msg a b r j' Q J];
          try (apply in_map_iff in Hin; destruct Hin as (? & Hx & _); discriminate); destruct Hin as [Hin|[]]; try discriminate. injection Hin as ->. now rewrite Q. }
      destruct (progress _ _ _ _ _ R12 L2 _ _ R Tk) as (T1 & T2 & F & E & M). rewrite Sd in X. rewrite X in E, M. cbn in E, M. subst T2. now rewrite M, app_nil_r.
    + cbn in E2. injection E2 as <- E2. now apply (IH L2 R12 m i' l).
  - subst m. assert (Hin : In (Takes i') es) by (rewrite E2, in_app_iff; right; now left).
    assert (X : es = [Takes i'] /\ n_loop n3 (side_of i') = mk_loop (l_queue (n_loop n3 (side_of i'))) [] None).
    { clear - S Hin. destruct S as [n es ws S|n x|n x q dup Q|n sd' q f r Q|n sd' q conn msg a b r Q|n sd' q conn msg a b r j' Q J|n sd' q conn msg a b r j' Q J];
        try (apply in_map_iff in Hin; destruct Hin as (? & Hx & _); discriminate); destruct Hin as [Hin|[]]; try discriminate. injection Hin as ->. now rewrite Q. }
    destruct X as (-> & X). destruct l as [|? [|]]; try discriminate. rewrite app_nil_r in *.
    destruct (progress _ _ _ _ _ R12 L2 _ _ R Tk) as (T1 & T2 & F & E & M). rewrite Sd in X. rewrite X in E, M. cbn in E, M. subst T2. now rewrite M, app_nil_r.
Qed.
End S.
