(** Proofs for C151: the jam lasts, and how it comes about. *)
From Verif Require Import Base AckModel AckSpec AckProofs ClusterModel ClusterSpec ClusterTrans ClusterNode ClusterCalls ClusterSafety ClusterDeliver ClusterSettle DeadProofs PumpModel PumpSpec PumpProofs.
Open Scope string_scope.
Local Open Scope list_scope.
Local Arguments room : simpl never.

(** ** The jam lasts *)
Definition idle_log (l : list nlog) : Prop := forall e, In e l -> bus_work e = false.
Lemma idle_nil : idle_log []. Proof. intros e []. Qed.
Lemma idle_cons e l : bus_work e = false -> idle_log l -> idle_log (e :: l).
Proof. intros H Hl x [<-|Hx]; auto. Qed.
Lemma idle_app a b : idle_log a -> idle_log b -> idle_log (a ++ b).
Proof. intros Ha Hb x Hx. apply in_app_or in Hx. destruct Hx; auto. Qed.
Lemma idle_returned k j : idle_log (returned k j).
Proof. unfold returned. destruct (j_phase j); intros e He; cbn in He; try contradiction. destruct He as [<-|[]]. reflexivity. Qed.

Definition same_bus (n n' : node) : Prop :=
  n_in n' = n_in n /\ n_out n' = n_out n /\ n_listener n' = n_listener n /\ n_bcast n' = n_bcast n.

Lemma full_room {A} (q : list A) cap : (cap <= length q)%nat -> room q cap = false.
Proof. intros H. apply Nat.ltb_ge. exact H. Qed.

Lemma send_jam K n w tx j ok n' j' l : (cap_out K <= length (n_out n))%nat -> send_gate K n (j_phase j) ok = true ->
  (forall m, w <> ByListener m) ->
  send_step n w tx j ok = Some (n', j', l) -> same_bus n n' /\ idle_log l.
Proof.
  intros Hf Hg Hw. unfold send_step, to_worker, same_bus. unfold send_gate in Hg. destruct (j_phase j); try discriminate.
  - intros H; inversion H; subst. repeat split. now apply idle_cons, idle_nil.
  - intros H; inversion H; subst. repeat split. apply idle_cons, idle_nil. destruct w; try reflexivity. now destruct (Hw m).
  - destruct (n_started n); intros H; inversion H; subst; repeat split; [now apply idle_cons, idle_nil|apply idle_nil].
  - rewrite (full_room _ _ Hf), Bool.andb_false_r in Hg. discriminate.
  - destruct (n_started n); intros H; inversion H; subst; repeat split; [now apply idle_cons, idle_nil|apply idle_nil].
Qed.
Lemma log_jam n e : (forall m, n_listener n <> LChecking m) ->
  same_bus n (fst (on_worker_log n e)) /\ idle_log (snd (on_worker_log n e)).
Proof.
  intros Hl. unfold same_bus. destruct e as [| | | |id tx st|id tx st]; cbn; try (now repeat split; try apply idle_nil).
  - destruct (n_listener n) eqn:E; cbn; try (now repeat split; try apply idle_nil). now destruct (Hl m).
  - destruct (nth_error (n_jobs n) tx) as [j|]; [|now repeat split; try apply idle_nil].
    destruct (j_phase j); cbn; repeat split; try apply idle_nil. now apply idle_cons, idle_nil.
Qed.
Lemma logs_jam es : forall n, (forall m, n_listener n <> LChecking m) ->
  same_bus n (fst (on_worker_logs n es)) /\ idle_log (snd (on_worker_logs n es)).
Proof.
  induction es as [|e es IH]; intros n Hl; cbn; [split; [now repeat split|apply idle_nil]|].
  destruct (log_jam n e Hl) as [S I]. destruct (on_worker_log n e) as [n1 l1]. cbn in S, I.
  assert (Hl1: forall m, n_listener n1 <> LChecking m) by (destruct S as (_ & _ & -> & _); exact Hl).
  destruct (IH n1 Hl1) as [S2 I2]. destruct (on_worker_logs n1 es) as [n2 l2]. cbn in *. split.
  - unfold same_bus in *. destruct S as (? & ? & ? & ?), S2 as (? & ? & ? & ?). repeat split; congruence.
  - apply idle_cons; [reflexivity|]. now apply idle_app.
Qed.

Lemma jam_step K b ev b' l ws : jammed K b -> bnstep K b ev = Some (b', l, ws) ->
  jammed K b' /\ idle_log l /\ ws = [].
Proof.
  intros ((m & Hm) & Hi & (x & Hx) & Hb & Ho) H.
  assert (NL: forall y, n_listener (b_node b) <> LChecking y) by (intros; congruence).
  assert (G: forall n', same_bus (b_node b) n' -> jammed K {| b_node := n'; b_hand := b_hand b |}).
  { intros n' (E1 & E2 & E3 & E4). unfold jammed. cbn. rewrite E1, E2, E3, E4. eauto 10. }
  assert (T: same_bus (b_node b) (b_node b)) by (now repeat split).
  destruct ev as [e| |]; cbn [bnstep] in H.
  2:{ rewrite Hm in H. discriminate. }
  2:{ rewrite Hm, (full_room _ _ Hi) in H. discriminate. }
  destruct (gate K b e) eqn:Eg; [|discriminate]. destruct (nstep (b_node b) e) as [[[n' l'] ws']|] eqn:E; [|discriminate].
  inversion H; subst. clear H. cut (same_bus (b_node b) n' /\ idle_log l /\ ws = []); [intros (S & I & ->); auto|]. clear G T.
  destruct e as [c|c| |c id text inform wait|k ok|now|wev|ok|ok|ok|]; cbn [nstep gate] in *.
  - inversion E; subst. split; [now repeat split|]. split; [now apply idle_cons, idle_nil|reflexivity].
  - inversion E; subst. split; [now repeat split|]. split; [now apply idle_cons, idle_nil|reflexivity].
  - rewrite Hb in E. inversion E; subst. split; [now repeat split|]. split; [now apply idle_cons, idle_nil|reflexivity].
  - inversion E; subst. split; [now repeat split|]. split; [now apply idle_cons, idle_nil|reflexivity].
  - destruct (nth_error (n_jobs (b_node b)) k) as [j|]; [|discriminate].
    destruct (send_step (b_node b) (ByCall k) k j ok) as [[[sn j'] l0]|] eqn:Es; [|discriminate].
    apply (send_jam K) in Es; [|exact Ho|exact Eg|discriminate]. destruct Es as [S I]. inversion E; subst.
    split; [exact S|]. split; [|reflexivity]. apply idle_app; [exact I|apply idle_returned].
  - destruct (n_inbox (b_node b)) as [|y rest]; [discriminate|]. destruct (wstep _ _ _) as [[w' es]|]; [|discriminate].
    pose proof (logs_jam es (set_worker (set_inbox (b_node b) rest) w') NL) as [S I].
    destruct (on_worker_logs _ es) as [n2 l2]. inversion E; subst. split; [exact S|]. now split.
  - assert (Q: forall ev, match wstep (n_cf (b_node b)) (n_worker (b_node b)) ev with
          | Some (w', es) => let (n', l) := on_worker_logs (set_worker (b_node b) w') es in Some (n', l, ([] : list wrapped))
          | None => None end = Some (n', l, ws) -> same_bus (b_node b) n' /\ idle_log l /\ ws = []).
    { intros ev Q. destruct (wstep _ _ ev) as [[w' es]|]; [|discriminate].
      pose proof (logs_jam es (set_worker (b_node b) w') NL) as [S I]. destruct (on_worker_logs _ es) as [n2 l2].
      inversion Q; subst. split; [exact S|]. now split. }
    destruct wev; try discriminate; now apply Q in E.
  - destruct (n_consumer (b_node b)) as [|j|id [|c todo]|]; try discriminate.
    + destruct (n_started (b_node b)); [|discriminate].
      destruct (n_actions (b_node b)) as [|[c id y inform|id cl] rest]; try discriminate; inversion E; subst; (split; [now repeat split|]); now split; [apply idle_nil|].
    + destruct (send_step (b_node b) ByResend 0 j ok) as [[[sn j'] l0]|] eqn:Es; [|discriminate].
      apply (send_jam K) in Es; [|exact Ho|exact Eg|discriminate]. destruct Es as [S I]. inversion E; subst. split; [exact S|]. now split.
    + inversion E; subst. split; [now repeat split|]. now split; [apply idle_nil|].
    + destruct (has_conn c (b_node b)); inversion E; subst; (split; [now repeat split|]); split; try reflexivity; [now apply idle_cons, idle_nil|apply idle_nil].
  - rewrite Hx, Hb, (full_room _ _ Ho), Bool.andb_false_r in Eg. discriminate.
  - rewrite Hm in Eg. discriminate.
  - discriminate.
Qed.

(** A call that returns without the broadcaster had found its connection, or had
    published before. *)
Lemma In_filter {A} (f : A -> bool) l r x : filter f l = r -> In x r -> In x l.
Proof. intros <- H. apply filter_In in H. tauto. Qed.
Lemma jam_return n hl n' l ws k r : nhist n hl -> ntrans n n' l ws -> n_bcast n = true -> idle_log l -> In (NReturn k r) l ->
  (exists c, In (NFound (ByCall k) c true) hl) \/ (exists m, In (NOut (ByCall k) m) hl).
Proof.
  intros Hh T Hb I Hr. destruct (calls_hist _ _ Hh) as [C _]. destruct (job_step _ _ _ _ k T) as [_ F|c id text inform wait _ _ ->|j sn p l0 Hj S _ -> _|j st id Hj Hp _ _ ->].
  - exfalso. assert (X: In (NReturn k r) (filter (of_call k) l)) by (apply filter_In; split; [exact Hr|cbn; apply Nat.eqb_refl]).
    rewrite F in X. exact X.
  - destruct Hr as [X|[]]; discriminate.
  - specialize (C _ _ Hj). unfold job_trace in C. destruct C as (rec & reg & _ & _ & _ & C).
    assert (P: is_done p = true).
    { apply in_app_or in Hr. destruct Hr as [Hr|Hr].
      - exfalso. destruct S; cbn in Hr; intuition discriminate.
      - unfold returned in Hr. cbn in Hr. destruct p; cbn in Hr; try contradiction; reflexivity. }
    destruct S as [Ep Hc|Ep Hc Hn|Ep Hc Hn|ok Ep|Ep Hs|Ep Hs|Ep|Ep|Ep Hs|Ep Hs]; try discriminate P; rewrite Ep in C.
    + congruence.
    + left. exists (j_conn j). eapply In_filter; [exact C|]. right. now left.
    + exfalso. specialize (I (NOut (ByCall k) (MsgWs (ws_of n j)))). cbn in I. discriminate I. now left.
    + exfalso. specialize (I (NOutFail (ByCall k))). cbn in I. discriminate I. now left.
    + right. exists (MsgWs (ws_of n j)). destruct C as [C _]. eapply In_filter; [exact C|].
      apply in_or_app. right. apply in_or_app. right. now left.
  - specialize (C _ _ Hj). unfold job_trace in C. destruct C as (rec & reg & _ & _ & _ & C). rewrite Hp in C. destruct C as [C _].
    right. exists (MsgWs (ws_of n j)). eapply In_filter; [exact C|]. apply in_or_app. right. apply in_or_app. right. now left.
Qed.

(** The lookup of a call has one result. *)
Lemma found_once n l k c c' : nhist n l -> In (NFound (ByCall k) c true) l -> In (NFound (ByCall k) c' false) l -> False.
Proof.
  intros Hh Ht Hf. apply (tagged k) in Ht; [|cbn; apply Nat.eqb_refl]. apply (tagged k) in Hf; [|cbn; apply Nat.eqb_refl].
  destruct (calls_hist _ _ Hh) as [C D]. destruct (nth_error (n_jobs n) k) as [j|] eqn:Ej.
  2:{ apply nth_error_None in Ej. rewrite (D k Ej) in Ht. exact Ht. }
  specialize (C _ _ Ej). destruct C as (rec & reg & _ & _ & _ & C). destruct (j_phase j).
  - destruct C as [C _]. rewrite C in Ht. destruct Ht as [X|[]]; discriminate.
  - rewrite C in Hf. cbn in Hf. intuition discriminate.
  - destruct C as [C _]. rewrite C in Ht. cbn in Ht. intuition discriminate.
  - destruct C as [C _]. rewrite C in Ht. destruct rec; cbn in Ht; intuition discriminate.
  - destruct C as [C _]. rewrite C in Ht. destruct rec; cbn in Ht; intuition discriminate.
  - destruct C as [C _]. rewrite C in Ht. destruct rec; cbn in Ht; intuition discriminate.
  - destruct C as [rc rg ok|rc rg Hb|rc rg Hb|rc rg r' Hb H1 H2].
    + cbn in Hf. intuition discriminate.
    + cbn in Ht. intuition discriminate.
    + destruct rc; cbn in Ht; intuition discriminate.
    + destruct rc, (j_wait j && rg)%bool; cbn in Ht; intuition discriminate.
Qed.

Lemma bcrun_log K evs : forall c log c' log', bcrun K c log evs = Some (c', log') -> exists new, log' = log ++ new.
Proof.
  induction evs as [|[i ev] evs IH]; intros c log c' log' H; cbn in H.
  - inversion H; subst. exists []. now rewrite app_nil_r.
  - destruct (bcstep K c i ev) as [[c1 out]|]; [|discriminate]. destruct (IH _ _ _ _ H) as (new & ->). exists (out ++ new). now rewrite app_assoc.
Qed.

Lemma jam_run K c0 u evs : forall c log c' new, breachable K c0 c log -> jammed K (bc_node c u) ->
  bcrun K c log evs = Some (c', log ++ new) ->
  jammed K (bc_node c' u) /\ (forall e, In (u, e) new -> bus_work e = false) /\
  (forall k r, In (u, NReturn k r) new ->
     (exists x, In (u, NFound (ByCall k) x true) (log ++ new)) \/ (exists m, In (u, NOut (ByCall k) m) log)).
Proof.
  induction evs as [|[i ev] evs IH]; intros c log c' new R J H; cbn [bcrun] in H.
  - inversion H. assert (new = []) by (apply (app_inv_head log); now rewrite app_nil_r). subst. rewrite app_nil_r. split; [exact J|]. now split; intros ? [].
  - destruct (bcstep K c i ev) as [[c1 out]|] eqn:E; [|discriminate].
    destruct (bcrun_log _ _ _ _ _ _ H) as (new1 & En). rewrite <- app_assoc in En. apply app_inv_head in En. subst new.
    rewrite app_assoc in H. pose proof (breach_step _ _ _ _ _ _ _ _ R E) as R1.
    assert (Q: jammed K (bc_node c1 u) /\ (forall e, In (u, e) out -> bus_work e = false) /\
      forall k r, In (u, NReturn k r) out -> (exists x, In (u, NFound (ByCall k) x true) log) \/ (exists m, In (u, NOut (ByCall k) m) log)).
    { unfold bcstep in E. destruct (Nat.ltb i (bc_size c)); [|discriminate].
      destruct (bnstep K (bc_node c i) ev) as [[[b' l] ws]|] eqn:Eb; [|discriminate]. inversion E; subst. cbn [bc_node].
      destruct (Nat.eqb_spec u i) as [->|Hne].
      - destruct (jam_step _ _ _ _ _ _ J Eb) as (J1 & I & ->). split; [|split].
        + unfold jammed, bpublish in *. cbn. exact J1.
        + intros e He. apply in_map_iff in He. destruct He as (x & Ex & Hx). inversion Ex; subst. now apply I.
        + intros k r He. apply in_map_iff in He. destruct He as (x & Ex & Hx). inversion Ex; subst.
          pose proof (breach_node _ _ _ _ i R) as Hh.
          destruct (bnstep_abs _ _ _ _ _ _ Eb) as [(_ & -> & _)|(e & _ & A)]; [destruct Hx|].
          apply nstep_trans in A.
          assert (Hb: n_bcast (abs (bc_node c i)) = true) by (destruct J as (_ & _ & _ & Hb & _); exact Hb).
          destruct (jam_return _ _ _ _ _ _ _ Hh A Hb I Hx) as [(x & Y)|(m & Y)].
          * left. exists x. now apply on_node_In.
          * right. exists m. now apply on_node_In.
      - split; [|split].
        + unfold jammed, bpublish in *. cbn. exact J.
        + intros e He. apply in_map_iff in He. destruct He as (x & Ex & _). congruence.
        + intros k r He. apply in_map_iff in He. destruct He as (x & Ex & _). congruence. }
    destruct Q as (J1 & I1 & N1). destruct (IH _ _ _ _ R1 J1 H) as (J2 & I2 & N2). split; [exact J2|]. split.
    + intros e He. apply in_app_or in He. destruct He; auto.
    + intros k r He. apply in_app_or in He. destruct He as [He|He].
      * destruct (N1 _ _ He) as [(x & Y)|Y]; [left|now right]. exists x. apply in_or_app. now left.
      * destruct (N2 _ _ He) as [(x & Y)|(m & Y)].
        { left. exists x. now rewrite app_assoc. }
        { apply in_app_or in Y. destruct Y as [Y|Y]; [right; now exists m|]. apply I1 in Y. discriminate. }
Qed.

(** ** The channels stay within their capacities *)
Lemma room_lt {A} (q : list A) x cap : room q cap = true -> (length (q ++ [x]) <= cap)%nat.
Proof. intros H. apply room_true in H. rewrite app_length. cbn. lia. Qed.
Lemma send_within K n w tx j ok n' j' l : (length (n_out n) <= cap_out K)%nat -> (length (n_inbox n) <= cap_ack K)%nat ->
  send_gate K n (j_phase j) ok = true -> send_step n w tx j ok = Some (n', j', l) ->
  (length (n_out n') <= cap_out K)%nat /\ (length (n_inbox n') <= cap_ack K)%nat /\ n_in n' = n_in n /\ n_actions n' = n_actions n /\ n_consumer n' = n_consumer n.
Proof.
  intros Ho Hi Hg. unfold send_step, to_worker. unfold send_gate in Hg. destruct (j_phase j); try discriminate.
  - intros H; inversion H; subst. auto.
  - intros H; inversion H; subst. auto.
  - destruct (n_started n); intros H; inversion H; subst; cbn; auto using room_lt.
  - apply andb_prop in Hg. destruct Hg as [-> Hg]. intros H; inversion H; subst; cbn; auto using room_lt.
  - destruct (n_started n); intros H; inversion H; subst; cbn; auto using room_lt.
Qed.
Definition no_action (es : list ack_log) : Prop := forall a, ~ In (AckModel.LAction a) es.
Lemma logs_within es : forall n, no_action es ->
  let n' := fst (on_worker_logs n es) in
  n_out n' = n_out n /\ n_in n' = n_in n /\ n_inbox n' = n_inbox n /\ n_actions n' = n_actions n /\ n_consumer n' = n_consumer n.
Proof.
  induction es as [|e es IH]; intros n Hn; cbn zeta; [cbn; auto|]. cbn [on_worker_logs].
  assert (Q: let n1 := fst (on_worker_log n e) in
    n_out n1 = n_out n /\ n_in n1 = n_in n /\ n_inbox n1 = n_inbox n /\ n_actions n1 = n_actions n /\ n_consumer n1 = n_consumer n).
  { destruct e as [| | |a|id tx st|id tx st]; cbn; auto.
    - exfalso. apply (Hn a). now left.
    - destruct (n_listener n), st; cbn; auto.
    - destruct (nth_error (n_jobs n) tx) as [j|]; cbn; auto. destruct (j_phase j); cbn; auto. }
  destruct (on_worker_log n e) as [n1 l1]. cbn in Q. specialize (IH n1 ltac:(intros a Ha; apply (Hn a); now right)). cbn zeta in IH.
  destruct (on_worker_logs n1 es) as [n2 l2]. cbn in *. intuition congruence.
Qed.

Lemma within_step K b ev b' l ws : within K b -> bnstep K b ev = Some (b', l, ws) -> within K b'.
Proof.
  intros (Wo & Wi & Wk & Wa) H. destruct ev as [e| |]; cbn [bnstep] in H.
  2:{ destruct (b_hand b); [discriminate|]. destruct (n_sub (b_node b)); [discriminate|]. inversion H; subst. unfold within. cbn. auto. }
  2:{ destruct (b_hand b); [|discriminate]. destruct (room (n_in (b_node b)) (cap_in K)) eqn:E; [|discriminate]. inversion H; subst. unfold within. cbn.
      auto using room_lt. }
  destruct (gate K b e) eqn:Eg; [|discriminate]. destruct (nstep (b_node b) e) as [[[n' l'] ws']|] eqn:E; [|discriminate].
  inversion H; subst. clear H. unfold within. cbn [b_node].
  destruct e as [c|c| |c id text inform wait|k ok|now|wev|ok|ok|ok|]; cbn [nstep gate] in *.
  - inversion E; subst. cbn. auto.
  - inversion E; subst. cbn. auto.
  - destruct (n_bcast (b_node b)); [|discriminate]. inversion E; subst. cbn. auto.
  - inversion E; subst. cbn. auto.
  - destruct (nth_error (n_jobs (b_node b)) k) as [j|]; [|discriminate].
    destruct (send_step (b_node b) (ByCall k) k j ok) as [[[sn j'] l0]|] eqn:Es; [|discriminate].
    apply (send_within K) in Es; [|exact Wo|exact Wk|exact Eg]. destruct Es as (A1 & A2 & A3 & A4 & A5). inversion E; subst. cbn.
    rewrite A3, A4, A5. auto.
  - destruct (n_inbox (b_node b)) as [|y rest] eqn:Ei; [discriminate|]. destruct (wstep _ _ _) as [[w' es]|] eqn:Ew; [|discriminate].
    assert (Hn: no_action es) by (intros a Ha; destruct y; cbn in Ew; inversion Ew; subst; cbn in Ha; intuition discriminate).
    pose proof (logs_within es (set_worker (set_inbox (b_node b) rest) w') Hn) as Q. cbn zeta in Q.
    destruct (on_worker_logs _ es) as [n2 l2]. inversion E; subst. cbn in Q. destruct Q as (-> & -> & -> & -> & ->).
    repeat split; auto. cbn in Wk. lia.
  - assert (Q: forall ev, (forall m t, ev <> WRecv m t) -> ev <> WSend -> match wstep (n_cf (b_node b)) (n_worker (b_node b)) ev with
          | Some (w', es) => let (n', l) := on_worker_logs (set_worker (b_node b) w') es in Some (n', l, ([] : list wrapped))
          | None => None end = Some (n', l, ws) -> 
          (length (n_out n') <= cap_out K)%nat /\ (length (n_in n') <= cap_in K)%nat /\
          (length (n_inbox n') <= cap_ack K)%nat /\ (n_consumer n' <> CDead -> (length (n_actions n') <= cap_act K)%nat)).
    { intros ev Hr Hs Q. destruct (wstep _ _ ev) as [[w' es]|] eqn:Ew; [|discriminate].
      assert (Hn: no_action es).
      { intros a Ha. destruct ev as [m t|t| | | |i]; try (now destruct (Hr m t)); try contradiction; cbn in Ew.
        - destruct (w_ticker _); inversion Ew; subst. destruct Ha.
        - destruct (w_ticker _); inversion Ew; subst. apply in_map_iff in Ha. destruct Ha as (x & Hx & _). discriminate.
        - destruct (w_ticker _); inversion Ew; subst. destruct Ha as [Ha|[]]. discriminate.
        - destruct (nth_error _ _) as [[id tx]|]; [|discriminate]. destruct (wait_answer _ _); inversion Ew; subst; [destruct Ha as [Ha|[]]; discriminate|destruct Ha]. }
      pose proof (logs_within es (set_worker (b_node b) w') Hn) as P. cbn zeta in P. destruct (on_worker_logs _ es) as [n2 l2].
      inversion Q; subst. cbn in P. destruct P as (-> & -> & -> & -> & ->). auto. }
    destruct wev as [m t|t| | | |i]; try discriminate.
    + now apply (Q (WTick t)).
    + now apply (Q WScan).
    + clear Q. cbn [wstep] in E. destruct (w_ticker (n_worker (b_node b))) as [| |[|a rest]|]; try discriminate. cbn in E. inversion E; subst. cbn.
      repeat split; auto. intros Hd. destruct (n_consumer (b_node b)); try contradiction; now apply room_lt.
    + now apply (Q WForget).
    + now apply (Q (WPoll i)).
  - destruct (n_consumer (b_node b)) as [|j|id [|c todo]|] eqn:Ec; try discriminate.
    + specialize (Wa ltac:(discriminate)). destruct (n_started (b_node b)); [|discriminate].
      destruct (n_actions (b_node b)) as [|[c id y inform|id cl] rest]; try discriminate; inversion E; subst; cbn in *; repeat split; auto; intros _; lia.
    + destruct (send_step (b_node b) ByResend 0 j ok) as [[[sn j'] l0]|] eqn:Es; [|discriminate].
      apply (send_within K) in Es; [|exact Wo|exact Wk|exact Eg]. destruct Es as (A1 & A2 & A3 & A4 & A5). inversion E; subst. cbn.
      rewrite A3, A4. repeat split; auto. intros _. apply Wa. discriminate.
    + inversion E; subst. cbn. repeat split; auto. intros _. apply Wa. discriminate.
    + destruct (has_conn c (b_node b)); inversion E; subst; cbn; repeat split; auto; intros _; apply Wa; discriminate.
  - unfold to_worker in E. destruct (n_listener (b_node b)) as [|m|m|m|m]; try discriminate.
    + destruct (n_in (b_node b)) as [|[m|node id] rest] eqn:Ei; try discriminate; cbn in E, Wi; destruct (n_started (b_node b)); inversion E; subst; cbn;
        repeat split; auto using room_lt; lia.
    + inversion E; subst. cbn. auto.
    + inversion E; subst. cbn. auto.
    + destruct (n_bcast (b_node b)).
      * apply andb_prop in Eg. destruct Eg as [-> Eg]. inversion E; subst. cbn. auto using room_lt.
      * inversion E; subst. cbn. auto.
  - destruct (n_out (b_node b)) as [|m rest] eqn:Eo; [discriminate|]. inversion E; subst. cbn in *. repeat split; auto. lia.
  - discriminate.
Qed.

Lemma within_reach K c0 c log : breachable K c0 c log -> forall i, within K (bc_node c i).
Proof.
  intros (F & evs & H). assert (W0: forall i, within K (bc_node c0 i)).
  { intros i. destruct (F i) as (name & bus & bcast & cf & ->). unfold within. cbn. repeat split; lia. }
  clear F. revert c0 H W0. generalize (@nil (nat * nlog)). induction evs as [|[i ev] evs IH]; intros log0 c0 H W0; cbn in H.
  - inversion H; subst. exact W0.
  - destruct (bcstep K c0 i ev) as [[c1 out]|] eqn:E; [|discriminate]. apply (IH _ _ H). intros j. unfold bcstep in E.
    destruct (Nat.ltb i (bc_size c0)); [|discriminate]. destruct (bnstep K (bc_node c0 i) ev) as [[[b' l] ws]|] eqn:Eb; [|discriminate].
    inversion E; subst. cbn. assert (W: within K (if Nat.eqb j i then b' else bc_node c0 j)).
    { destruct (Nat.eqb j i); [eapply within_step; eauto|apply W0]. }
    exact W.
Qed.
