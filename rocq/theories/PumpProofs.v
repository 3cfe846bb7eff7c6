(** Proofs for C151: refinement, progress, the jam. *)
From Verif Require Import Base AckModel AckSpec AckProofs ClusterModel ClusterSpec ClusterTrans ClusterNode ClusterCalls ClusterSafety ClusterDeliver ClusterSettle DeadProofs PumpModel PumpSpec.
Open Scope string_scope.
Local Open Scope list_scope.
Local Arguments room : simpl never.

(** ** Refinement: a node with its hand emptied into the incoming queue *)
Definition hand (b : bnode) : list bus_message := match b_hand b with Some m => [m] | None => [] end.
Definition abs (b : bnode) : node := set_in (b_node b) (n_in (b_node b) ++ hand b).

Lemma set_in_in n a b : set_in (set_in n a) b = set_in n b. Proof. reflexivity. Qed.
Lemma send_in n v w tx j ok : send_step (set_in n v) w tx j ok =
  match send_step n w tx j ok with Some (n', j', l) => Some (set_in n' v, j', l) | None => None end.
Proof.
  unfold send_step, to_worker, has_conn; cbn. destruct (j_phase j); try reflexivity.
  - destruct (n_started n); reflexivity.
  - destruct ok; reflexivity.
  - destruct (n_started n); reflexivity.
Qed.
Lemma send_in_same n w tx j ok n' j' l : send_step n w tx j ok = Some (n', j', l) -> n_in n' = n_in n.
Proof.
  unfold send_step, to_worker; cbn. destruct (j_phase j); try discriminate.
  - intros H; inversion H; now subst.
  - intros H; inversion H; now subst.
  - destruct (n_started n); intros H; inversion H; now subst.
  - destruct ok; intros H; inversion H; now subst.
  - destruct (n_started n); intros H; inversion H; now subst.
Qed.
Lemma log_in n v e : on_worker_log (set_in n v) e = let (n', l) := on_worker_log n e in (set_in n' v, l).
Proof.
  destruct e as [| | | |id tx st|id tx st]; cbn; try reflexivity.
  - destruct (n_listener n), st; reflexivity.
  - destruct (nth_error (n_jobs n) tx) as [j|]; [|reflexivity]. destruct (j_phase j); reflexivity.
Qed.
Lemma log_in_same n e : n_in (fst (on_worker_log n e)) = n_in n.
Proof.
  destruct e as [| | | |id tx st|id tx st]; cbn; try reflexivity.
  - destruct (n_listener n), st; reflexivity.
  - destruct (nth_error (n_jobs n) tx) as [j|]; [|reflexivity]. destruct (j_phase j); reflexivity.
Qed.
Lemma logs_in es : forall n v, on_worker_logs (set_in n v) es = let (n', l) := on_worker_logs n es in (set_in n' v, l).
Proof.
  induction es as [|e es IH]; intros n v; cbn; [reflexivity|]. rewrite log_in.
  destruct (on_worker_log n e) as [n1 l1]. rewrite IH. now destruct (on_worker_logs n1 es).
Qed.
Lemma logs_in_same es : forall n, n_in (fst (on_worker_logs n es)) = n_in n.
Proof.
  induction es as [|e es IH]; intros n; cbn; [reflexivity|]. pose proof (log_in_same n e) as S.
  destruct (on_worker_log n e) as [n1 l1]. cbn in S. specialize (IH n1). destruct (on_worker_logs n1 es) as [n2 l2]. cbn in *. congruence.
Qed.

Lemma nstep_more n e n' l ws x : nstep n e = Some (n', l, ws) -> e <> ETake ->
  nstep (set_in n (n_in n ++ x)) e = Some (set_in n' (n_in n' ++ x), l, ws).
Proof.
  destruct e as [c|c| |c id text inform wait|k ok|now|wev|ok|ok|ok|]; intros H Hne; cbn [nstep] in *.
  - inversion H; subst. reflexivity.
  - inversion H; subst. reflexivity.
  - cbn. destruct (n_bcast n); [|discriminate]. inversion H; subst. reflexivity.
  - inversion H; subst. reflexivity.
  - cbn [set_in n_jobs]. destruct (nth_error (n_jobs n) k) as [j|]; [|discriminate]. rewrite send_in.
    destruct (send_step n (ByCall k) k j ok) as [[[sn j'] l']|] eqn:Es; [|discriminate]. apply send_in_same in Es.
    inversion H; subst. cbn. rewrite Es. reflexivity.
  - cbn [set_in n_inbox n_cf n_worker]. destruct (n_inbox n) as [|m rest] eqn:Ei; [discriminate|].
    destruct (wstep (n_cf n) (n_worker n) (WRecv m now)) as [[w' es]|]; [|discriminate].
    change (set_worker (set_inbox (set_in n (n_in n ++ x)) rest) w') with (set_in (set_worker (set_inbox n rest) w') (n_in n ++ x)).
    rewrite logs_in. pose proof (logs_in_same es (set_worker (set_inbox n rest) w')) as S.
    destruct (on_worker_logs (set_worker (set_inbox n rest) w') es) as [n2 l2]. cbn in S. inversion H; subst. now rewrite S.
  - assert (G: forall ev, match wstep (n_cf n) (n_worker n) ev with
          | Some (w', es) => let (n', l) := on_worker_logs (set_worker n w') es in Some (n', l, ([] : list wrapped))
          | None => None end = Some (n', l, ws) ->
        match wstep (n_cf n) (n_worker n) ev with
          | Some (w', es) => let (n', l) := on_worker_logs (set_worker (set_in n (n_in n ++ x)) w') es in Some (n', l, ([] : list wrapped))
          | None => None end = Some (set_in n' (n_in n' ++ x), l, ws)).
    { intros ev G. destruct (wstep (n_cf n) (n_worker n) ev) as [[w' es]|]; [|discriminate].
      change (set_worker (set_in n (n_in n ++ x)) w') with (set_in (set_worker n w') (n_in n ++ x)).
      rewrite logs_in. pose proof (logs_in_same es (set_worker n w')) as S.
      destruct (on_worker_logs (set_worker n w') es) as [n2 l2]. cbn in S. inversion G; subst. now rewrite S. }
    cbn [set_in n_cf n_worker]. destruct wev; try discriminate; now apply G.
  - cbn [set_in n_consumer n_started n_actions]. destruct (n_consumer n) as [|j|id [|c todo]|]; try discriminate.
    + destruct (n_started n); [|discriminate]. destruct (n_actions n) as [|[c id m inform|id cl] rest]; try discriminate; inversion H; subst; reflexivity.
    + rewrite send_in. destruct (send_step n ByResend 0 j ok) as [[[sn j'] l']|] eqn:Es; [|discriminate]. apply send_in_same in Es.
      inversion H; subst. cbn. rewrite Es. reflexivity.
    + inversion H; subst. reflexivity.
    + change (has_conn c (set_in n (n_in n ++ x))) with (has_conn c n). destruct (has_conn c n); inversion H; subst; reflexivity.
  - cbn [set_in n_listener n_in]. unfold to_worker in *. destruct (n_listener n) as [|m|m|m|m]; try discriminate.
    + destruct (n_in n) as [|[m|node id] rest]; try discriminate; cbn in *; destruct (n_started n); inversion H; subst; reflexivity.
    + change (has_conn (wm_conn m) (set_in n (n_in n ++ x))) with (has_conn (wm_conn m) n). inversion H; subst. reflexivity.
    + inversion H; subst. reflexivity.
    + cbn. destruct (n_bcast n); [destruct ok|]; inversion H; subst; reflexivity.
  - cbn. destruct (n_out n); [discriminate|]. inversion H; subst. reflexivity.
  - contradiction.
Qed.

Lemma abs_publish ws b : abs (bpublish ws b) = publish ws (abs b). Proof. reflexivity. Qed.

(** One step of a node, seen without bounds. *)
Lemma bnstep_abs K b ev b' l ws : bnstep K b ev = Some (b', l, ws) ->
  (ev = BPush /\ l = [] /\ ws = [] /\ abs b' = abs b) \/
  exists e, (ev = BEv e \/ ev = BTake /\ e = ETake) /\ nstep (abs b) e = Some (abs b', l, ws).
Proof.
  destruct ev as [e| |]; cbn [bnstep].
  - destruct (gate K b e) eqn:G; [|discriminate]. destruct (nstep (b_node b) e) as [[[n' l'] ws']|] eqn:E; [|discriminate].
    intros H; inversion H; subst. right. exists e. split; [now left|]. unfold abs. cbn. apply nstep_more; [exact E|].
    intros ->. discriminate G.
  - destruct (b_hand b) eqn:Eh; [discriminate|]. destruct (n_sub (b_node b)) as [|w rest] eqn:Es; [discriminate|].
    intros H; inversion H; subst. right. exists ETake. split; [now right|]. unfold abs, hand. rewrite Eh. cbn. rewrite Es. cbn.
    rewrite app_nil_r. destruct (relevant _ _); reflexivity.
  - destruct (b_hand b) as [m|] eqn:Eh; [|discriminate]. destruct (room _ _); [|discriminate]. intros H; inversion H; subst.
    left. repeat split. unfold abs, hand. rewrite Eh. cbn. now rewrite app_nil_r.
Qed.

Definition sim (c : bcluster) (cl : cluster) : Prop := cl_size cl = bc_size c /\ forall i, cl_node cl i = abs (bc_node c i).

Lemma bcstep_sim K c i ev c' out cl : bcstep K c i ev = Some (c', out) -> sim c cl ->
  (ev = BPush /\ out = [] /\ sim c' cl) \/
  exists e cl', (ev = BEv e \/ ev = BTake /\ e = ETake) /\ cstep cl i e = Some (cl', out) /\ sim c' cl'.
Proof.
  unfold bcstep. intros H (Sz & Sn). destruct (Nat.ltb i (bc_size c)) eqn:Hi; [|discriminate].
  destruct (bnstep K (bc_node c i) ev) as [[[b' l] ws]|] eqn:E; [|discriminate]. inversion H; subst.
  destruct (bnstep_abs _ _ _ _ _ _ E) as [(-> & -> & -> & A)|(e & He & A)].
  - left. repeat split; [exact Sz|]. intros j. cbn [bc_node]. rewrite abs_publish, publish_nil. rewrite Sn.
    destruct (Nat.eqb_spec j i) as [->|]; congruence.
  - right. exists e. eexists. split; [exact He|]. unfold cstep. rewrite Sz, Hi, Sn, A. split; [reflexivity|].
    split; [reflexivity|]. intros j. cbn [cl_node bc_node]. rewrite abs_publish. destruct (Nat.eqb j i); [reflexivity|]. now rewrite Sn.
Qed.

Lemma bcrun_sim K evs : forall c log c' log' cl, bcrun K c log evs = Some (c', log') -> sim c cl ->
  exists evs' cl', crun cl log evs' = Some (cl', log') /\ sim c' cl'.
Proof.
  induction evs as [|[i ev] evs IH]; intros c log c' log' cl H S; cbn in H.
  - inversion H; subst. exists [], cl. now split.
  - destruct (bcstep K c i ev) as [[c1 out]|] eqn:E; [|discriminate].
    destruct (bcstep_sim _ _ _ _ _ _ _ E S) as [(_ & -> & S1)|(e & cl1 & _ & E1 & S1)].
    + rewrite app_nil_r in H. eapply IH; eauto.
    + destruct (IH _ _ _ _ _ H S1) as (evs' & cl' & H' & S'). exists ((i, e) :: evs'), cl'. cbn. rewrite E1. now split.
Qed.

Lemma breach_sim K c0 c log : breachable K c0 c log ->
  exists cl, creachable (unbounded c0) cl log /\ sim c cl.
Proof.
  intros (F & evs & H).
  assert (S0: sim c0 (unbounded c0)).
  { split; [reflexivity|]. intros i. cbn. destruct (F i) as (name & bus & bcast & cf & ->). reflexivity. }
  destruct (bcrun_sim K evs c0 [] c log (unbounded c0) H S0) as (evs' & cl & H' & S).
  exists cl. split; [|exact S]. split; [|exists evs'; exact H'].
  intros i. cbn. destruct (F i) as (name & bus & bcast & cf & E). exists name, bus, bcast, cf. now rewrite E.
Qed.
Lemma breach_node K c0 c log u : breachable K c0 c log -> nhist (abs (bc_node c u)) (on_node u log).
Proof. intros R. destruct (breach_sim _ _ _ _ R) as (cl & R' & _ & S). rewrite <- S. eapply creachable_node; eauto. Qed.

Lemma bcrun_app K evs1 evs2 c log : bcrun K c log (evs1 ++ evs2) =
  match bcrun K c log evs1 with Some (c', log') => bcrun K c' log' evs2 | None => None end.
Proof.
  revert c log. induction evs1 as [|[i e] evs1 IH]; intros; cbn; [reflexivity|].
  destruct (bcstep K c i e) as [[c' out]|]; auto.
Qed.
Lemma breach_step K c0 c log i ev c' out : breachable K c0 c log -> bcstep K c i ev = Some (c', out) -> breachable K c0 c' (log ++ out).
Proof.
  intros (F & evs & H) Hs. split; [exact F|]. exists (evs ++ [(i, ev)]). rewrite bcrun_app, H. cbn. now rewrite Hs.
Qed.
Lemma breach_run K c0 evs : forall c log c' log', breachable K c0 c log -> bcrun K c log evs = Some (c', log') -> breachable K c0 c' log'.
Proof. intros c log c' log' (F & es & H) Hr. split; [exact F|]. exists (es ++ evs). now rewrite bcrun_app, H. Qed.

(** ** Progress *)
Lemma room_true {A} (q : list A) cap : room q cap = true <-> (length q < cap)%nat.
Proof. apply Nat.ltb_lt. Qed.
Lemma room_nil {A} cap : (1 <= cap)%nat -> room ([] : list A) cap = true.
Proof. intros H. apply room_true. cbn. lia. Qed.

Definition can (K : caps) (b : bnode) : Prop := exists ev, binternal ev = true /\ bnstep K b ev <> None.
Lemma can_ev K b e : internal e = true -> gate K b e = true -> nstep (b_node b) e <> None -> can K b.
Proof.
  intros Hi Hg Hn. exists (BEv e). split; [exact Hi|]. cbn [bnstep]. rewrite Hg. destruct (nstep (b_node b) e) as [[[? ?] ?]|]; congruence.
Qed.

Lemma node_can K b l : sized K -> nhist (abs b) l -> at_rest b \/ jammed K b \/ can K b.
Proof.
  intros (Ko & Ki & Ka & _) Hh. pose proof (checks_hist _ _ Hh) as C. unfold asked in C. cbn [abs set_in n_inbox n_listener] in C.
  destruct (n_inbox (b_node b)) as [|m r] eqn:E3.
  2:{ right; right. apply (can_ev K b (EWorkerRecv 0%N)); [reflexivity|reflexivity|]. cbn. rewrite E3. destruct m; cbn; try discriminate.
      destruct (n_listener (b_node b)); try discriminate. destruct (check_answer _ _); discriminate. }
  destruct (n_listener (b_node b)) as [|x|x|x|x] eqn:E4; cbn in C; try discriminate C.
  - destruct (n_in (b_node b)) as [|m r] eqn:E5.
    + destruct (b_hand b) as [m|] eqn:E6.
      { right; right. exists BPush. split; [reflexivity|]. cbn. rewrite E6, E5, (@room_nil bus_message _ Ki). discriminate. }
      destruct (n_out (b_node b)) as [|m r] eqn:E1.
      2:{ right; right. apply (can_ev K b (EForward true)); [reflexivity|cbn; now rewrite E6|cbn; rewrite E1; discriminate]. }
      destruct (n_sub (b_node b)) as [|w r] eqn:E2.
      { left. unfold at_rest. auto 10. }
      right; right. exists BTake. split; [reflexivity|]. cbn. rewrite E6, E2. discriminate.
    + right; right. apply (can_ev K b (EListen true)); [reflexivity| |].
      * cbn. rewrite E4, E3, (@room_nil worker_msg _ Ka). now destruct (n_started (b_node b)).
      * cbn. rewrite E4, E5. unfold to_worker. destruct m; cbn; destruct (n_started (b_node b)); discriminate.
  - right; right. apply (can_ev K b (EListen true)); [reflexivity|cbn; now rewrite E4|cbn; rewrite E4; discriminate].
  - right; right. apply (can_ev K b (EListen true)); [reflexivity|cbn; now rewrite E4|cbn; rewrite E4; discriminate].
  - destruct (n_bcast (b_node b)) eqn:Eb.
    2:{ right; right. apply (can_ev K b (EListen true)); [reflexivity|cbn; now rewrite E4, Eb|cbn; rewrite E4, Eb; discriminate]. }
    destruct (Nat.lt_ge_cases (length (n_out (b_node b))) (cap_out K)) as [Hl|Hl].
    { right; right. apply (can_ev K b (EListen true)); [reflexivity| |cbn; rewrite E4, Eb; discriminate].
      cbn. rewrite E4, Eb. now apply room_true. }
    destruct (b_hand b) as [m|] eqn:E6.
    + destruct (Nat.lt_ge_cases (length (n_in (b_node b))) (cap_in K)) as [Hn|Hn].
      * right; right. exists BPush. split; [reflexivity|]. cbn. rewrite E6, (proj2 (room_true _ _) Hn). discriminate.
      * right; left. unfold jammed. eauto 10.
    + right; right. apply (can_ev K b (EForward true)); [reflexivity|cbn; now rewrite E6|]. cbn.
      destruct (n_out (b_node b)); [cbn in Hl; lia|discriminate].
Qed.

(** ** Every schedule of internal steps ends *)
Local Open Scope nat_scope.
Definition hands (N : nat) (f : nat -> bnode) : nat := list_sum (map (fun i => length (hand (f i))) (seq 0 N)).
Definition bweight (c : bcluster) : nat := 2 * weight (bc_size c) (fun i => abs (bc_node c i)) + hands (bc_size c) (bc_node c).

Lemma weight_ext N f g : (forall i, f i = g i) -> weight N f = weight N g.
Proof. intros H. unfold weight. f_equal. apply map_ext. intros. now rewrite H. Qed.
Lemma hands_step N f g i x : i < N -> (forall j, j <> i -> length (hand (g j)) = length (hand (f j))) -> length (hand (g i)) = x ->
  hands N g + length (hand (f i)) = hands N f + x.
Proof.
  intros Hi Hg Hx. unfold hands.
  pose proof (weight_update (fun j => length (hand (f j))) (fun j => length (hand (g j))) i x 0 (seq 0 N) (seq_NoDup _ _)) as U.
  cbn beta in U. rewrite Nat.mul_0_r, !Nat.add_0_r in U. apply U.
  - apply in_seq. lia.
  - intros j Hj. rewrite Nat.add_0_r. now apply Hg.
  - exact Hx.
Qed.
Lemma hand_bound b : length (hand b) <= 1. Proof. unfold hand. destruct (b_hand b); cbn; lia. Qed.
Lemma hand_publish ws b : hand (bpublish ws b) = hand b. Proof. reflexivity. Qed.

Lemma bcstep_weight K c i ev c' out : binternal ev = true -> bcstep K c i ev = Some (c', out) ->
  bc_size c' = bc_size c /\ bweight c' + 1 <= bweight c.
Proof.
  intros Hi H. pose proof H as H0. unfold bcstep in H0. destruct (Nat.ltb_spec i (bc_size c)) as [Hl|]; [|discriminate].
  destruct (bnstep K (bc_node c i) ev) as [[[b' l] ws]|] eqn:E; [|discriminate]. inversion H0; subst c' out. cbn [bc_size]. split; [reflexivity|].
  unfold bweight. cbn [bc_size].
  set (g := fun j => bpublish ws (if Nat.eqb j i then b' else bc_node c j)).
  assert (G: hands (bc_size c) g + length (hand (bc_node c i)) = hands (bc_size c) (bc_node c) + length (hand b')).
  { apply hands_step; [exact Hl| |].
    - intros j Hj. unfold g. rewrite (proj2 (Nat.eqb_neq _ _) Hj). reflexivity.
    - unfold g. rewrite Nat.eqb_refl. reflexivity. }
  pose (cl := {| cl_size := bc_size c; cl_node := fun j => abs (bc_node c j) |}).
  assert (S: sim c cl) by (split; [reflexivity|intros; reflexivity]).
  destruct (bcstep_sim _ _ _ _ _ _ _ H S) as [(-> & _ & _ & S1)|(e & cl' & He & E1 & Sz & S1)].
  - cbn in E. destruct (b_hand (bc_node c i)) as [m|] eqn:Eh; [|discriminate]. destruct (room _ _); [|discriminate]. inversion E; subst b'.
    rewrite (weight_ext _ (fun i0 => abs (bc_node {| bc_size := bc_size c; bc_node := g |} i0)) (fun j => abs (bc_node c j))) by (intros j; symmetry; apply S1).
    assert (Q: length (hand (bc_node c i)) = 1) by (unfold hand; now rewrite Eh).
    replace (bc_node {| bc_size := bc_size c; bc_node := g |}) with g by reflexivity. cbn [hand b_hand length] in G. lia.
  - assert (I: internal e = true) by (destruct He as [->|[-> ->]]; [exact Hi|reflexivity]).
    destruct (cstep_weight _ _ _ _ _ I E1) as [_ W]. cbn [cl cl_size cl_node] in W. fold cl in W.
    rewrite (weight_ext _ (cl_node cl') (fun i0 => abs (bc_node {| bc_size := bc_size c; bc_node := g |} i0))) in W by (intros j; apply S1).
    replace (bc_node {| bc_size := bc_size c; bc_node := g |}) with g in * by reflexivity.
    pose proof (hand_bound b'). lia.
Qed.

Lemma bcrun_weight K evs : forall c log c' log', Forall (fun e => binternal (snd e) = true) evs -> bcrun K c log evs = Some (c', log') ->
  length evs + bweight c' <= bweight c.
Proof.
  induction evs as [|[i ev] evs IH]; intros c log c' log' Hi H; cbn in H.
  - inversion H; subst. cbn. lia.
  - destruct (bcstep K c i ev) as [[c1 out]|] eqn:E; [|discriminate]. inversion Hi; subst. cbn in H2.
    apply bcstep_weight in E; [|exact H2]. apply IH in H; [|assumption]. cbn [length]. lia.
Qed.

Lemma cluster_can K c0 c log : sized K -> breachable K c0 c log ->
  (forall i, i < bc_size c -> at_rest (bc_node c i) \/ jammed K (bc_node c i)) \/
  exists i ev, binternal ev = true /\ bcstep K c i ev <> None.
Proof.
  intros HK R.
  assert (G: forall k, k <= bc_size c -> (forall i, i < k -> at_rest (bc_node c i) \/ jammed K (bc_node c i)) \/
     exists i ev, binternal ev = true /\ bcstep K c i ev <> None).
  { induction k as [|k IH]; intros Hk; [left; intros i Hi; lia|].
    destruct (IH ltac:(lia)) as [IH'|IH']; [|now right].
    destruct (node_can K _ _ HK (breach_node _ _ _ _ k R)) as [Hn|[Hn|(ev & He & Hs)]].
    - left. intros i Hi. destruct (Nat.eq_dec i k) as [->|]; [now left|]. apply IH'. lia.
    - left. intros i Hi. destruct (Nat.eq_dec i k) as [->|]; [now right|]. apply IH'. lia.
    - right. exists k, ev. split; [exact He|]. unfold bcstep. rewrite (proj2 (Nat.ltb_lt _ _)) by lia.
      destruct (bnstep K (bc_node c k) ev) as [[[? ?] ?]|]; [discriminate|contradiction]. }
  apply (G (bc_size c)). lia.
Qed.

(** ** Calls, the tracker's rounds and its task *)
Definition calm (t : ticker) : Prop := t = TIdle \/ exists now, t = TScan now.
Lemma wstep_off cf w ev w' es : wstep cf w ev = Some (w', es) -> (forall m now, ev <> WRecv m now) -> w_acks w = [] -> calm (w_ticker w) ->
  w_acks w' = [] /\ calm (w_ticker w') /\ (forall a, ~ In (LAction a) es).
Proof.
  unfold calm. intros H Hn Ha Hc. destruct ev as [m now|now| | | |i]; cbn in H.
  - now exfalso; apply (Hn m now).
  - destruct (w_ticker w); try discriminate. inversion H; subst; cbn. split; [exact Ha|]. split; [eauto|]. intros a [].
  - destruct (w_ticker w); try discriminate. rewrite Ha in H. inversion H; subst; cbn. split; [reflexivity|]. split; [auto|]. intros a [].
  - destruct Hc as [Hc|(now & Hc)]; rewrite Hc in H; discriminate.
  - destruct Hc as [Hc|(now & Hc)]; rewrite Hc in H; discriminate.
  - destruct (nth_error (w_waits w) i) as [[id tx]|]; [|discriminate]. destruct (wait_answer (w_acks w) id); inversion H; subst; cbn.
    + split; [exact Ha|]. split; [exact Hc|]. intros a0 [E|[]]; discriminate.
    + split; [exact Ha|]. split; [exact Hc|]. intros a [].
Qed.
Lemma off_hist n l : nhist n l -> n_started n = false ->
  n_inbox n = [] /\ w_acks (n_worker n) = [] /\ calm (w_ticker (n_worker n)) /\ n_actions n = [].
Proof.
  induction 1 as [name bus bcast cf | n l n' out ws Hh IH Ht | n l ws _ IH]; [unfold calm; cbn; auto| |exact IH].
  tcases Ht; cbn; intros Hs; try discriminate; try congruence; try (specialize (IH Hs); destruct IH as (I1 & I2 & I3 & I4); try congruence; auto; fail);
    specialize (IH Hs); destruct IH as (I1 & I2 & I3 & I4).
  - destruct (wstep_off _ _ _ _ _ H H0 I2 I3) as (J1 & J2 & _). auto.
  - exfalso. destruct (wstep_off _ _ _ _ _ H ltac:(discriminate) I2 I3) as (_ & _ & J). apply (J a). now left.
  - destruct (wstep_off _ _ _ _ _ H ltac:(discriminate) I2 I3) as (J1 & J2 & _). auto.
  - destruct (wstep_off _ _ _ _ _ H ltac:(discriminate) I2 I3) as (J1 & J2 & _). auto.
Qed.

Lemma wstep_send cf w ev w' es : wstep cf w ev = Some (w', es) -> w_ticker w <> TSend [] -> w_ticker w' <> TSend [].
Proof.
  intros H Hn. destruct ev as [m now|now| | | |i]; cbn in H.
  - destruct m; inversion H; subst; exact Hn.
  - destruct (w_ticker w); try discriminate. inversion H; subst; cbn. discriminate.
  - destruct (w_ticker w); try discriminate. inversion H; subst; cbn. destruct (flat_map _ _); discriminate.
  - destruct (w_ticker w) as [| |[|a r]|]; try discriminate. inversion H; subst; cbn. destruct a; [destruct r|]; discriminate.
  - destruct (w_ticker w) as [| | |id r]; try discriminate. inversion H; subst; cbn. destruct r; discriminate.
  - destruct (nth_error (w_waits w) i) as [[id tx]|]; [|discriminate]. destruct (wait_answer (w_acks w) id); inversion H; subst; exact Hn.
Qed.
Lemma send_hist n l : nhist n l -> w_ticker (n_worker n) <> TSend [].
Proof.
  induction 1 as [name bus bcast cf | n l n' out ws Hh IH Ht | n l ws _ IH]; [discriminate| |exact IH].
  tcases Ht; cbn; try exact IH; eapply wstep_send; eauto.
Qed.

Definition can_work (K : caps) (b : bnode) : Prop := exists ev, bwork ev = true /\ bnstep K b ev <> None.
Lemma work_ev K b e : bwork (BEv e) = true -> gate K b e = true -> nstep (b_node b) e <> None -> can_work K b.
Proof.
  intros Hi Hg Hn. exists (BEv e). split; [exact Hi|]. cbn [bnstep]. rewrite Hg. destruct (nstep (b_node b) e) as [[[? ?] ?]|]; congruence.
Qed.
Lemma gate_rest K b p : sized K -> at_rest b -> send_gate K (b_node b) p true = true.
Proof.
  intros (Ko & Ki & Ka & _) (_ & E1 & _ & _ & E3 & _). destruct p; cbn; rewrite ?E1, ?E3, ?room_nil by assumption; try reflexivity; now destruct (n_started _).
Qed.
Lemma jobs_work K b : sized K -> at_rest b -> can_work K b \/ (forall j, In j (n_jobs (b_node b)) -> j_phase j = PAwait \/ exists r, j_phase j = PDone r).
Proof.
  intros HK Hr.
  assert (D: (exists k j, nth_error (n_jobs (b_node b)) k = Some j /\ j_phase j <> PAwait /\ forall r, j_phase j <> PDone r) \/
     (forall j, In j (n_jobs (b_node b)) -> j_phase j = PAwait \/ exists r, j_phase j = PDone r)).
  { induction (n_jobs (b_node b)) as [|j js IH]; [right; intros ? []|].
    destruct IH as [(k & x & Hk & Hx)|IH]; [left; exists (S k), x; auto|].
    destruct (j_phase j) eqn:E.
    6,7: right; intros x [<-|Hx]; eauto.
    all: left; exists 0, j; split; [reflexivity|]; rewrite E; split; [discriminate|]; intros; discriminate. }
  destruct D as [(k & j & Hk & H1 & H2)|D]; [left|now right].
  apply (work_ev K b (EJob k true)); [reflexivity|cbn; rewrite Hk; now apply gate_rest|].
  cbn. rewrite Hk. unfold send_step, to_worker. destruct (j_phase j) eqn:E; cbn; try discriminate; try (destruct (n_started _); discriminate).
  - now exfalso; apply H1.
  - exfalso. now apply (H2 r).
Qed.
Lemma consumer_work K b l : sized K -> nhist (abs b) l -> at_rest b ->
  can_work K b \/ n_consumer (b_node b) = CDead \/ n_consumer (b_node b) = CIdle /\ n_actions (b_node b) = [].
Proof.
  intros HK Hh Hr. pose proof (send_ready _ _ Hh) as S. cbn [abs set_in n_consumer n_started] in S.
  destruct (n_consumer (b_node b)) as [|j|id todo|] eqn:Ec.
  - destruct (n_actions (b_node b)) as [|a r] eqn:Ea; [auto|].
    destruct (n_started (b_node b)) eqn:Es.
    + left. apply (work_ev K b (EConsumer true)); [reflexivity|cbn; now rewrite Ec|]. cbn. rewrite Ec, Es, Ea. destruct a; discriminate.
    + exfalso. destruct (off_hist _ _ Hh Es) as (_ & _ & _ & E). cbn in E. congruence.
  - left. destruct S as [R _]. apply (work_ev K b (EConsumer true)); [reflexivity|cbn; rewrite Ec; now apply gate_rest|].
    cbn. rewrite Ec. unfold send_step, to_worker. unfold resendable in R. destruct (j_phase j) eqn:E; cbn; try discriminate; try (destruct (n_started _); discriminate).
    all: exfalso; intuition discriminate.
  - left. apply (work_ev K b (EConsumer true)); [reflexivity|cbn; now rewrite Ec|]. cbn. rewrite Ec. destruct todo; [discriminate|]. destruct (has_conn _ _); discriminate.
  - auto.
Qed.
Lemma worker_work K b l : sized K -> nhist (abs b) l -> (n_consumer (b_node b) = CDead \/ n_actions (b_node b) = []) ->
  can_work K b \/ w_ticker (n_worker (b_node b)) = TIdle.
Proof.
  intros (_ & _ & _ & Kc) Hh Hc. pose proof (send_hist _ _ Hh) as S. cbn [abs set_in n_worker] in S.
  destruct (w_ticker (n_worker (b_node b))) as [|now|todo|id rest] eqn:E; [auto|left|left|left].
  - apply (work_ev K b (EWorker WScan)); [reflexivity|reflexivity|]. cbn. rewrite E. destruct (on_worker_logs _ _). discriminate.
  - destruct todo as [|a r]; [congruence|]. apply (work_ev K b (EWorker WSend)); [reflexivity| |cbn; rewrite E; discriminate].
    cbn. destruct (n_consumer (b_node b)) eqn:Ec; try reflexivity; destruct Hc as [Hc|Hc]; try discriminate; rewrite Hc; now apply room_nil.
  - apply (work_ev K b (EWorker WForget)); [reflexivity|reflexivity|]. cbn. rewrite E. discriminate.
Qed.
Lemma node_work K b l : sized K -> nhist (abs b) l -> all_rest b \/ jammed K b \/ can_work K b.
Proof.
  intros HK Hh. destruct (node_can K b l HK Hh) as [Hr|[Hj|(ev & He & Hs)]]; [|auto|].
  - destruct (jobs_work K b HK Hr) as [W|Hj]; [auto|]. destruct (consumer_work K b l HK Hh Hr) as [W|Hc]; [auto|].
    destruct (worker_work K b l HK Hh) as [W|Hw]; [tauto|auto|]. left. unfold all_rest. auto.
  - right; right. exists ev. split; [unfold bwork; now rewrite He|exact Hs].
Qed.
Lemma cluster_work K c0 c log i : sized K -> breachable K c0 c log -> (i < bc_size c)%nat ->
  all_rest (bc_node c i) \/ jammed K (bc_node c i) \/ exists ev, bwork ev = true /\ bcstep K c i ev <> None.
Proof.
  intros HK R Hi. destruct (node_work K _ _ HK (breach_node _ _ _ _ i R)) as [Hn|[Hn|(ev & He & Hs)]]; [auto|auto|].
  right; right. exists ev. split; [exact He|]. unfold bcstep. rewrite (proj2 (Nat.ltb_lt _ _)) by lia.
  destruct (bnstep K (bc_node c i) ev) as [[[? ?] ?]|]; [discriminate|contradiction].
Qed.

Lemma comes_to_rest K c0 : sized K -> forall w c log, bweight c <= w -> breachable K c0 c log ->
  exists evs c' log', Forall (fun e => binternal (snd e) = true) evs /\ bcrun K c log evs = Some (c', log') /\
    (forall i, i < bc_size c' -> at_rest (bc_node c' i) \/ jammed K (bc_node c' i)).
Proof.
  intros HK. induction w as [|w IH]; intros c log Hw R; destruct (cluster_can K c0 c log HK R) as [D|(i & ev & He & Hs)].
  - exists [], c, log. split; [constructor|]. now split.
  - exfalso. destruct (bcstep K c i ev) as [[c1 out]|] eqn:E; [|contradiction]. apply bcstep_weight in E; [lia|exact He].
  - exists [], c, log. split; [constructor|]. now split.
  - destruct (bcstep K c i ev) as [[c1 out]|] eqn:E; [|contradiction]. pose proof (breach_step _ _ _ _ _ _ _ _ R E) as R1.
    apply bcstep_weight in E as W; [|exact He]. destruct (IH c1 (log ++ out) ltac:(lia) R1) as (evs & c' & log' & F & H & D).
    exists ((i, ev) :: evs), c', log'. split; [constructor; [exact He|exact F]|]. split; [|exact D]. cbn. now rewrite E.
Qed.
