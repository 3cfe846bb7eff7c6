From Verif Require Import Base Json ClusterModel WireModel WireProofs RedisModel RedisSpec.
From Coq Require Import Lia.
Open Scope string_scope.
Local Open Scope list_scope.

Lemma relevant_concerns node w : relevant node w = true <-> concerns node w.
Proof.
  unfold relevant, concerns. destruct (String.eqb (wr_source w) node) eqn:E.
  - apply String.eqb_eq in E. split; [discriminate|]. intros [A _]. now elim A.
  - apply String.eqb_neq in E. destruct (wr_message w); [tauto|]. rewrite String.eqb_eq. tauto.
Qed.

Lemma judge_pass node p m : judge node p = VPass m <-> exists w, carries p w /\ concerns node w /\ wr_message w = m.
Proof.
  unfold judge, carries. split.
  - destruct (p_kind p); [|discriminate]. destruct (p_data p) as [|a [|[v| |] r]]; cbn [nth_error]; try discriminate.
    destruct (r_wrapped v) as [w|] eqn:W; [|discriminate]. destruct (relevant node w) eqn:R; [|discriminate].
    intros [= <-]. exists w. split; [split; [reflexivity|]; now exists a, v, r|]. split; [now apply relevant_concerns|reflexivity].
  - intros (w & (K & a & v & r & D & W) & C & <-). rewrite K, D. cbn [nth_error]. rewrite W.
    apply relevant_concerns in C. now rewrite C.
Qed.
Lemma carries_fun p w w' : carries p w -> carries p w' -> w = w'.
Proof. intros (_ & a & v & r & D & W) (_ & a' & v' & r' & D' & W'). rewrite D in D'. injection D' as _ <- _. congruence. Qed.
Lemma judge_foreign node p : (forall m, judge node p <> VPass m) -> foreign node p.
Proof. intros H w C R. apply (H (wr_message w)). apply judge_pass. eauto. Qed.
Lemma foreign_judge node p m : foreign node p -> judge node p <> VPass m.
Proof. intros F J. apply judge_pass in J as (w & C & R & _). exact (F w C R). Qed.
Lemma judge_panic node p : server_push p -> judge node p <> VPanic.
Proof.
  unfold server_push, judge. intros S. destruct (p_kind p); [|discriminate]. destruct (S eq_refl) as (a & b & r & ->). cbn [nth_error].
  destruct b; try discriminate. destruct (r_wrapped v); [|discriminate]. destruct (relevant node w); discriminate.
Qed.

(** * Projections over appended logs *)
Lemma taken_app a b : taken (a ++ b) = taken a ++ taken b.
Proof. induction a as [|[] a IH]; cbn; try reflexivity; try exact IH; now rewrite IH. Qed.
Lemma got_app a b : got (a ++ b) = got a ++ got b.
Proof. induction a as [|[] a IH]; cbn; try reflexivity; try exact IH; now rewrite IH. Qed.
Lemma accepted_app a b : accepted (a ++ b) = accepted a ++ accepted b.
Proof. induction a as [|[m []| | | | |] a IH]; cbn; try reflexivity; try exact IH; now rewrite IH. Qed.
Lemma refused_app a b : refused (a ++ b) = refused a ++ refused b.
Proof. induction a as [|[m []| | | | |] a IH]; cbn; try reflexivity; try exact IH; now rewrite IH. Qed.
Lemma handed_app a b : handed (a ++ b) = handed a ++ handed b.
Proof. induction a as [|[] a IH]; cbn; try reflexivity; try exact IH; now rewrite IH. Qed.
Lemma published_app a b : published (a ++ b) = published a ++ published b.
Proof. induction a as [|[] a IH]; cbn; try reflexivity; try exact IH; now rewrite IH. Qed.
Lemma arrivals_app a b : arrivals (a ++ b) = arrivals a ++ arrivals b.
Proof. induction a as [|[] a IH]; cbn; try reflexivity; try exact IH; now rewrite IH. Qed.
Lemma heard_app node a b x y : heard node a x -> heard node b y -> heard node (a ++ b) (x ++ y).
Proof. induction 1; intros B; cbn; [exact B| |]; [apply heard_one|apply heard_skip]; auto. Qed.

Lemma lrun_snoc l log evs ev l' log' : lrun l log (evs ++ [ev]) = Some (l', log') ->
  exists l1 log1 out, lrun l log evs = Some (l1, log1) /\ lstep l1 ev = Some (l', out) /\ log' = log1 ++ out.
Proof.
  revert l log. induction evs as [|e evs IH]; intros l log; cbn.
  - destruct (lstep l ev) as [[l1 o]|] eqn:S; [|discriminate]. intros [= <- <-]. now exists l, log, o.
  - destruct (lstep l e) as [[l1 o]|]; [|discriminate]. apply IH.
Qed.
Lemma lrun_app l log a b : lrun l log (a ++ b) = match lrun l log a with Some (l1, log1) => lrun l1 log1 b | None => None end.
Proof. revert l log. induction a as [|e a IH]; intros; cbn; [reflexivity|]. destruct (lstep l e) as [[l1 o]|]; [apply IH|reflexivity]. Qed.

(** * The invariant of a link *)
Record linv (node : string) (evs : list levent) (l : link) (log : list llog) : Prop := {
  li_node : l_node l = node;
  li_heard : l_receiver l = true -> heard node (taken log) (got log ++ l_in l);
  li_taken : l_task l = Running -> taken log ++ l_pushes l = arrivals evs;
  li_handed : l_task l = Running -> map (fun m => {| wr_source := node; wr_message := m |}) (accepted log) =
              handed log ++ map (fun m => {| wr_source := node; wr_message := m |}) (l_out l);
  li_life : Forall server_push (arrivals evs) -> l_receiver l = true -> l_task l = Running \/ (l_up l = false /\ l_senders l = false);
  li_refused : l_task l = Running -> refused log = [];
  li_down : l_task l <> Running -> l_up l = false;
  li_prefix : exists rest, taken log ++ l_pushes l ++ rest = arrivals evs
}.

Ltac inv_step S := unfold lstep in S; repeat match type of S with
  | Some _ = Some _ => injection S as <- <-
  | None = Some _ => discriminate S
  | context [match ?x with _ => _ end] => destruct x eqn:?
  end.

Lemma linv_new node : linv node [] (new_link node) [].
Proof. split; cbn; auto using heard_none. - congruence. - now exists []. Qed.



Inductive lview (l : link) : levent -> link -> list llog -> Prop :=
| v_push p : l_up l = true -> lview l (EvPush p) (set_pushes l (l_pushes l ++ [p])) []
| v_down : l_up l = true -> lview l EvDown (set_up l false) []
| v_send m : l_senders l = true -> l_task l = Running -> lview l (EvSend m) (set_lout l (l_out l ++ [m])) [LSent m true]
| v_refuse m : l_senders l = true -> l_task l <> Running -> lview l (EvSend m) l [LSent m false]
| v_recv m rest : l_receiver l = true -> l_in l = m :: rest -> lview l EvRecv (set_lin l rest) [LGot m]
| v_closed : l_receiver l = true -> l_in l = [] -> l_task l <> Running -> lview l EvRecv l [LClosed]
| v_dropS : l_senders l = true -> lview l EvDropSenders (set_senders l false) []
| v_dropR : l_receiver l = true -> lview l EvDropReceiver (set_lin (set_receiver l false) []) []
| v_nothing p rest : l_task l = Running -> l_pushes l = p :: rest -> judge (l_node l) p = VNothing -> lview l EvTake (set_pushes l rest) [LTook p]
| v_pass p rest m : l_task l = Running -> l_pushes l = p :: rest -> judge (l_node l) p = VPass m -> l_receiver l = true ->
    lview l EvTake (set_lin (set_pushes l rest) (l_in l ++ [m])) [LTook p]
| v_end p rest m : l_task l = Running -> l_pushes l = p :: rest -> judge (l_node l) p = VPass m -> l_receiver l = false ->
    lview l EvTake (stop l Ended) [LTook p]
| v_panic p rest : l_task l = Running -> l_pushes l = p :: rest -> judge (l_node l) p = VPanic -> lview l EvTake (stop l Panicked) [LTook p]
| v_pub m rest : l_task l = Running -> l_out l = m :: rest -> l_up l = true ->
    lview l (EvForward true) (set_lout l rest) [LPublished {| wr_source := l_node l; wr_message := m |}]
| v_fail m rest : l_task l = Running -> l_out l = m :: rest ->
    lview l (EvForward false) (set_lout l rest) [LFailed {| wr_source := l_node l; wr_message := m |}]
| v_else : l_task l = Running -> l_pushes l = [] -> l_out l = [] -> l_up l = false -> l_senders l = false -> lview l EvElse (stop l Ended) [].

Lemma lstep_view l ev l' out : lstep l ev = Some (l', out) -> lview l ev l' out.
Proof.
  destruct ev; intros S; inv_step S; try (econstructor; eauto; congruence).
  apply Bool.orb_false_iff in Heqb as []. now constructor.
Qed.
Ltac pr := rewrite ?taken_app, ?got_app, ?accepted_app, ?refused_app, ?handed_app; cbn -[judge]; rewrite ?app_nil_r.

Lemma linv_step node evs l log ev l' out : linv node evs l log -> lstep l ev = Some (l', out) -> linv node (evs ++ [ev]) l' (log ++ out).
Proof.
  intros I S. apply lstep_view in S. destruct I as [N H T A L R D (rest0 & P)].
  assert (AR: arrivals (evs ++ [ev]) = arrivals evs ++ match ev with EvPush p => [p] | _ => [] end)
    by (rewrite arrivals_app; destruct ev; reflexivity).
  destruct S; rewrite ?app_nil_r in AR; split; rewrite ?AR; pr; eauto; try congruence.
  - intros RN. now rewrite app_assoc, (T RN).
  - intros F. apply Forall_app in F as [F _]. exact (L F).
  - exists []. assert (RN: l_task l = Running) by (destruct (l_task l); try reflexivity; specialize (D ltac:(discriminate)); congruence).
    now rewrite app_nil_r, app_assoc, (T RN).
  - intros F RC. destruct (L F RC) as [|[U V]]; [now left|congruence].
  - intros RN. rewrite !map_app, (A RN). now rewrite <- app_assoc.
  - intros RC. rewrite <- app_assoc. cbn. rewrite <- H1. auto.
  - intros F RC. destruct (L F RC) as [|[U V]]; [now left|congruence].
  - intros RC. rewrite <- (app_nil_r (got log ++ l_in l)). apply heard_app; [auto|]. apply heard_skip; [|constructor].
    apply judge_foreign. intros m0. subst node. congruence.
  - intros RN. rewrite <- app_assoc. cbn. rewrite <- H1. auto.
  - exists rest0. rewrite <- app_assoc. cbn. rewrite H1 in P. exact P.
  - intros RC. rewrite app_assoc. apply heard_app; [auto|]. subst node. apply judge_pass in H2 as (w & C & K & <-).
    apply heard_one; [assumption..|constructor].
  - intros RN. rewrite <- app_assoc. cbn. rewrite <- H1. auto.
  - exists rest0. rewrite <- app_assoc. cbn. rewrite H1 in P. exact P.
  - exists (rest ++ rest0). rewrite <- app_assoc. cbn. rewrite H1 in P. exact P.
  - intros RC. rewrite <- (app_nil_r (got log ++ l_in l)). apply heard_app; [auto|]. apply heard_skip; [|constructor].
    apply judge_foreign. intros m0. subst node. congruence.
  - intros F _. exfalso. refine (judge_panic _ p _ H2). rewrite Forall_forall in F. apply F. rewrite <- P, H1. apply in_or_app. right. now left.
  - exists (rest ++ rest0). rewrite <- app_assoc. cbn. rewrite H1 in P. exact P.
  - intros RN. rewrite (A RN), H1, <- app_assoc, N. reflexivity.
  - intros RN. rewrite (A RN), H1, <- app_assoc, N. reflexivity.
Qed.
Lemma linv_history node evs l log : history node evs l log -> linv node evs l log.
Proof.
  unfold history. revert l log. induction evs as [|ev evs IH] using rev_ind; intros l log.
  - cbn. intros [= <- <-]. apply linv_new.
  - intros H. apply lrun_snoc in H as (l1 & log1 & out & R & S & ->). eapply linv_step; eauto.
Qed.

(** * After the connection is lost *)
Lemma down_run evs : forall l log l' log', lrun l log evs = Some (l', log') -> l_up l = false ->
  Forall server_push (l_pushes l) -> l_receiver l = true -> l_senders l = true -> l_task l = Running ->
  ~ In EvDropReceiver evs -> ~ In EvDropSenders evs ->
  l_task l' = Running /\ l_up l' = false /\ exists new, log' = log ++ new /\ published new = [] /\ refused new = [] /\
  heard (l_node l) (taken new) (skipn (length (l_in l)) (got new ++ l_in l')) /\
  l_in l = firstn (length (l_in l)) (got new ++ l_in l') /\
  taken new ++ l_pushes l' = l_pushes l.
Proof.
  induction evs as [|ev evs IH]; intros l log l' log'; cbn [lrun].
  - intros [= <- <-] U _ _ _ T _ _. do 2 (split; [assumption|]). exists []. rewrite app_nil_r. repeat split.
    + cbn. rewrite skipn_all. constructor.
    + cbn. now rewrite firstn_all.
  - destruct (lstep l ev) as [[l1 out]|] eqn:S; [|discriminate]. intros R U F RC SD T NR NS.
    apply lstep_view in S. pose proof (IH l1 (log ++ out) l' log' R) as K.
    assert (NR': ~ In EvDropReceiver evs) by (intros ?; apply NR; now right).
    assert (NS': ~ In EvDropSenders evs) by (intros ?; apply NS; now right).
    destruct S; try congruence; try (exfalso; apply NR; now left); try (exfalso; apply NS; now left).
    + (* send *) cbn in K. destruct K as (A & B & new & -> & P & Q & H1 & H2 & H3); auto.
      do 2 (split; [assumption|]). exists (LSent m true :: new). rewrite <- app_assoc. cbn. auto 10.
    + (* recv *) cbn in K. destruct K as (A & B & new & -> & P & Q & H1 & H2 & H3); auto.
      do 2 (split; [assumption|]). exists (LGot m :: new). rewrite <- app_assoc. cbn. rewrite H0. cbn. repeat split; auto. f_equal. exact H2.
    + (* nothing *) rewrite H0 in F. cbn in K. destruct K as (A & B & new & -> & P & Q & H4 & H2 & H3); auto. { now inversion F. }
      do 2 (split; [assumption|]). exists (LTook p :: new). rewrite <- app_assoc. cbn. repeat split; auto.
      * apply heard_skip; [|exact H4]. apply judge_foreign. congruence.
      * rewrite H0. f_equal. exact H3.
    + (* pass *) rewrite H0 in F. cbn in K. destruct K as (A & B & new & -> & P & Q & H4 & H5 & H3); auto. { now inversion F. }
      do 2 (split; [assumption|]). exists (LTook p :: new). rewrite <- app_assoc. cbn [app published refused taken got].
      apply judge_pass in H1 as (w & C1 & C2 & <-).
      rewrite app_length in H4, H5. cbn [length] in H4, H5.
      set (k := length (l_in l)) in *. set (x := got new ++ l_in l') in *.
      assert (E1: firstn k x = l_in l). { transitivity (firstn k (firstn (k + 1) x)); [rewrite firstn_firstn; f_equal; lia|]. rewrite <- H5. unfold k. rewrite firstn_app, Nat.sub_diag, firstn_all. cbn. apply app_nil_r. }
      assert (E2: skipn k x = wr_message w :: skipn (k + 1) x).
      { assert (X: x = (l_in l ++ [wr_message w]) ++ skipn (k + 1) x) by (rewrite H5 at 1; symmetry; apply firstn_skipn).
        rewrite X at 1. rewrite <- app_assoc. unfold k. rewrite skipn_app, skipn_all, Nat.sub_diag. reflexivity. }
      split; [reflexivity|]. split; [exact P|]. split; [exact Q|]. split; [|split; [now rewrite E1|]].
      * rewrite E2. now apply heard_one.
      * rewrite H0. cbn. f_equal. exact H3.
    + exfalso. refine (judge_panic _ p _ H1). rewrite H0 in F. now inversion F.
    + (* fail *) cbn in K. destruct K as (A & B & new & -> & P & Q & H1 & H2 & H3); auto.
      do 2 (split; [assumption|]). eexists (LFailed _ :: new). rewrite <- app_assoc. cbn. repeat split; auto.
Qed.

(** * A registry in use *)
Record oinv (evs : list oevent) (o : owners) : Prop := {
  oi_task : l_task (o_link o) = Running; oi_listener : o_listener o = true;
  oi_send : l_senders (o_link o) = true; oi_recv : l_receiver (o_link o) = true;
  oi_pushes : Forall server_push (l_pushes (o_link o));
  oi_up : ~ In (OLink EvDown) evs -> l_up (o_link o) = true }.
Lemma orun_snoc o evs ev o' : orun o (evs ++ [ev]) = Some o' -> exists o1, orun o evs = Some o1 /\ ostep o1 ev = Some o'.
Proof.
  revert o. induction evs as [|e evs IH]; intros o; cbn.
  - destruct (ostep o ev) eqn:S; [|discriminate]. intros [= <-]. eauto.
  - destruct (ostep o e); [|discriminate]. apply IH.
Qed.
Lemma arrivals_o_app a b : arrivals_o (a ++ b) = arrivals_o a ++ arrivals_o b.
Proof. induction a as [|[[]| | | | |] a IH]; cbn; try reflexivity; try exact IH; now rewrite IH. Qed.
Lemma settle_lives o : registry_lives o = true -> settle o = o.
Proof. unfold settle. now intros ->. Qed.
Lemma oinv_run node evs o : orun (in_use node) evs = Some o -> Forall server_push (arrivals_o evs) -> oinv evs o.
Proof.
  revert o. induction evs as [|ev evs IH] using rev_ind; intros o.
  - cbn. intros [= <-] _. split; cbn; auto.
  - intros R F. apply orun_snoc in R as (o1 & R & S). rewrite arrivals_o_app in F. apply Forall_app in F as [F F'].
    destruct (IH o1 R F) as [T L SD RC P U0]. clear IH.
    assert (U: ~ In (OLink EvDown) (evs ++ [ev]) -> l_up (o_link o1) = true) by (intros X; apply U0; intros Y; apply X, in_or_app; now left). clear U0.
    destruct ev as [e| | | | |].
    + cbn [ostep] in S. destruct e; try discriminate S.
      all: match type of S with context [lstep ?l ?e] => destruct (lstep l e) as [[l1 out]|] eqn:V; [|discriminate S] end.
      all: injection S as <-; apply lstep_view in V; inversion V; subst; try congruence; split; cbn; auto.
      all: try (apply Forall_app; split; [exact P|exact F']).
      all: try (intros X; exfalso; apply X, in_or_app; right; now left).
      all: try match goal with Q : l_pushes _ = _ :: _ |- _ => rewrite Q in P; now inversion P end.
      all: match goal with Q : l_pushes _ = ?p :: _, J : judge _ _ = VPanic |- _ => exfalso; refine (judge_panic _ p _ J); rewrite Q in P; now inversion P end.
    + cbn [ostep] in S. destruct (o_handle o1); [|discriminate]. injection S as <-. rewrite settle_lives by (unfold registry_lives; cbn; rewrite L; apply Bool.orb_true_r). split; auto.
    + cbn [ostep] in S. rewrite T in S. rewrite L in S. destruct (l_in (o_link o1)); discriminate S.
    + cbn [ostep] in S. unfold registry_lives in S. rewrite L, !Bool.orb_true_r, Bool.andb_false_r in S. discriminate S.
    + cbn [ostep] in S. destruct (o_consumer o1 && negb (o_tracker o1)); [|discriminate]. injection S as <-. rewrite settle_lives by (unfold registry_lives; cbn; rewrite L; apply Bool.orb_true_r). split; auto.
    + cbn [ostep] in S. destruct (o_consumer o1); [|discriminate]. injection S as <-. rewrite settle_lives by (unfold registry_lives; cbn; rewrite L; apply Bool.orb_true_r). split; auto.
Qed.
Lemma tracker_run node evs o : orun (in_use node) evs = Some o -> ~ In OConsumerPanics evs -> o_consumer o = true /\ o_tracker o = true.
Proof.
  revert o. induction evs as [|ev evs IH] using rev_ind; intros o.
  - cbn. intros [= <-] _. auto.
  - intros R N. apply orun_snoc in R as (o1 & R & S).
    assert (N': ~ In OConsumerPanics evs) by (intros ?; apply N, in_or_app; now left).
    destruct (IH o1 R N') as [C K]. clear IH. destruct ev as [e| | | | |]; cbn [ostep] in S.
    + destruct e; try discriminate S; match type of S with context [lstep ?l ?e] => destruct (lstep l e) as [[l1 out]|]; [|discriminate S] end; injection S as <-; auto.
    + destruct (o_handle o1); [|discriminate]. injection S as <-. rewrite settle_lives by (unfold registry_lives; cbn; now rewrite C). auto.
    + match type of S with (if ?c then _ else _) = _ => destruct c; [|discriminate S] end. injection S as <-.
      rewrite settle_lives by (unfold registry_lives; cbn; rewrite C; now rewrite Bool.orb_true_r). auto.
    + unfold registry_lives in S. rewrite C, Bool.orb_true_r in S. cbn in S. rewrite Bool.andb_false_r in S. discriminate S.
    + rewrite K, Bool.andb_false_r in S. discriminate S.
    + exfalso. apply N, in_or_app. right. now left.
Qed.

(** * A link that nobody uses *)
Lemma idle_run ps : forall l log evs l' log', lrun l log evs = Some (l', log') -> l_task l = Running -> l_receiver l = false ->
  l_up l = true -> Forall server_push (l_pushes l) -> Forall (foreign (l_node l)) (l_pushes l) ->
  arrivals evs = ps -> Forall server_push ps -> Forall (foreign (l_node l)) ps -> ~ In EvDown evs ->
  l_task l' = Running /\ l_up l' = true.
Proof.
  intros l log evs. revert ps l log. induction evs as [|ev evs IH]; intros ps l log l' log'; cbn [lrun].
  - intros [= <- <-] *. auto.
  - destruct (lstep l ev) as [[l1 out]|] eqn:S; [|discriminate]. intros R T RC U F1 F2 E F3 F4 ND.
    apply lstep_view in S. specialize (IH (arrivals evs) l1 (log ++ out) l' log' R).
    assert (ND': ~ In EvDown evs) by (intros ?; apply ND; now right).
    destruct S; try congruence; cbn in IH; cbn [arrivals] in E; try (rewrite E in IH).
    + subst ps. inversion F3; subst. inversion F4; subst. apply IH; auto; apply Forall_app; auto.
    + exfalso. apply ND. now left.
    + apply IH; auto.
    + apply IH; auto.
    + rewrite H0 in F1, F2. inversion F1; subst. inversion F2; subst. apply IH; auto.
    + exfalso. rewrite H0 in F2. inversion F2; subst. eapply foreign_judge; eauto.
    + exfalso. refine (judge_panic _ p _ H1). rewrite H0 in F1. now inversion F1.
    + apply IH; auto.
    + apply IH; auto.
Qed.
