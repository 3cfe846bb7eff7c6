(** Delivery and acknowledgement once the bus is quiet, and that it goes quiet. *)
From Verif Require Import Base AckModel AckSpec AckProofs ClusterModel ClusterSpec ClusterTrans ClusterNode ClusterCalls ClusterSafety ClusterDeliver ClusterNet.
Open Scope string_scope.
Local Open Scope list_scope.

Definition f_bus (m : ws_message) (b : bus_message) := match b with MsgWs x => isb (ws_eq_dec x m) | _ => false end.
Lemma heard_cnt m l : cnt (f_hear m) l = cnt (f_bus m) (heard l).
Proof.
  induction l as [|e l IH]; [reflexivity|]. change (e :: l) with ([e] ++ l). rewrite heard_app, !cnt_app, IH. f_equal.
  destruct e; try reflexivity. cbn. unfold cnt. cbn. destruct m0 as [x|]; cbn; [|reflexivity]. destruct (ws_eq_dec x m); reflexivity.
Qed.

Lemma registered_stay c a : forall b, registered c a -> ~ In (NRemove c) b -> registered c (a ++ b).
Proof.
  unfold registered. induction b as [|e b IH] using rev_ind; intros H Hn; [now rewrite app_nil_r|].
  rewrite app_assoc. assert (R: registered c (a ++ b)). { apply IH; [exact H|]. intros X. apply Hn, in_or_app. auto. }
  unfold registered in R. rewrite <- last_value_assigned in R |- *. rewrite last_value_app, R. cbn.
  assert (He: e <> NRemove c). { intros ->. apply Hn, in_or_app. right. now left. }
  destruct e; cbn; try reflexivity; destruct (string_dec c0 c); try reflexivity. congruence.
Qed.

Lemma found_conn n l : nhist n l -> forall m c b, In (NFound (ByListener m) c b) l -> c = wm_conn m.
Proof.
  induction 1 as [name bus bcast cf | n l n' out ws Hh IH Ht | n l ws _ IH]; [intros m c b []| |exact IH].
  intros m c b Hi. apply in_app_or in Hi. destruct Hi as [Hi|Hi]; [eauto|].
  tcases Ht; split_log Hi; destruct Hi as [Hi|[]]; inversion Hi; reflexivity.
Qed.

(** The state in which a message is forwarded has exactly the log before it. *)
Lemma forward_point c0 c log pre u w ok post : creachable c0 c log -> log = pre ++ (u, NForward w ok) :: post ->
  exists c1, creachable c0 c1 pre.
Proof.
  intros R E. destruct (cput _ _ _ R _ _ _ _ E) as (c1 & log1 & n1 & out & ws & o1 & o2 & R1 & _ & Ht & Eo & ->).
  assert (Hi: In (NForward w ok) out) by (rewrite Eo; apply in_or_app; right; now left).
  tcases Ht; split_log Hi. destruct o1 as [|x [|]]; try discriminate Eo. rewrite app_nil_r. eauto.
Qed.

Lemma heard_bound c0 c log v m : creachable c0 c log ->
  (cnt (f_hear m) (on_node v log) <= cnt (f_bus m) (map wr_message (filter (relevant (n_bus (cl_node c0 v))) (published log))))%nat.
Proof.
  intros R. pose proof (creachable_node _ _ _ R v) as Hh. destruct (static_hist _ _ _ R) as [_ S]. destruct (S v) as (_ & Eb & _).
  rewrite (bus_hist _ _ _ R v), filter_app, map_app, cnt_app, <- Eb, (conserve_in _ _ Hh), cnt_app, heard_cnt. lia.
Qed.
Lemma heard_all c0 c log v m : creachable c0 c log -> n_sub (cl_node c v) = [] -> n_in (cl_node c v) = [] ->
  (cnt (f_hear m) (on_node v log) = cnt (f_bus m) (map wr_message (filter (relevant (n_bus (cl_node c0 v))) (published log))))%nat.
Proof.
  intros R E1 E2. pose proof (creachable_node _ _ _ R v) as Hh. destruct (static_hist _ _ _ R) as [_ S]. destruct (S v) as (_ & Eb & _).
  rewrite (bus_hist _ _ _ R v), E1, app_nil_r, <- Eb, (conserve_in _ _ Hh), E2, app_nil_r, heard_cnt. reflexivity.
Qed.

Lemma delivered c0 c log pre u m post v :
  creachable c0 c log -> settled c ->
  log = pre ++ (u, NForward {| wr_source := n_bus (cl_node c0 u); wr_message := MsgWs m |} true) :: post ->
  (v < cl_size c0)%nat -> n_bus (cl_node c0 v) <> n_bus (cl_node c0 u) ->
  registered (wm_conn m) (on_node v pre) -> ~ In (v, NRemove (wm_conn m)) post ->
  (exists ok, In (v, NWrite (ByListener m) (wm_conn m) (wm_text m) ok) post) \/
  (In (v, NSkip m) post /\ exists tx, In (v, NWorker (LCheck (wm_id m) tx Received)) log).
Proof.
  intros R Hset E Hv Hb Hreg Hrm. pose proof (creachable_node _ _ _ R v) as Hh.
  destruct (static_hist _ _ _ R) as [Esz _].
  destruct (Hset v ltac:(rewrite Esz; exact Hv)) as (_ & S1 & S2 & _ & S3).
  destruct (forward_point _ _ _ _ _ _ _ _ R E) as (c1 & R1). pose proof (creachable_node _ _ _ R1 v) as Hh1.
  assert (Huv: u <> v) by (intros ->; now apply Hb).
  assert (Ev: on_node v log = on_node v pre ++ on_node v post).
  { rewrite E, on_node_app. f_equal. unfold on_node. cbn. now rewrite (proj2 (Nat.eqb_neq u v) Huv). }
  pose proof (heard_all c0 c log v m R S1 S2) as HA. pose proof (heard_bound c0 c1 pre v m R1) as HB.
  assert (HP: (cnt (f_bus m) (map wr_message (filter (relevant (n_bus (cl_node c0 v))) (published log))) >=
     cnt (f_bus m) (map wr_message (filter (relevant (n_bus (cl_node c0 v))) (published pre))) + 1)%nat).
  { rewrite E, published_app. cbn [published flat_map snd app]. rewrite filter_app, map_app, cnt_app.
    assert (Er: relevant (n_bus (cl_node c0 v)) {| wr_source := n_bus (cl_node c0 u); wr_message := MsgWs m |} = true).
    { apply relevant_addressed. split; [cbn; congruence|discriminate]. }
    match goal with |- context [filter ?f (?x :: ?r)] => change (x :: r) with ([x] ++ r); rewrite filter_app, map_app, cnt_app end.
    cbn [filter]. rewrite Er.
    assert (E1: cnt (f_bus m) (map wr_message [{| wr_source := n_bus (cl_node c0 u); wr_message := MsgWs m |}]) = 1%nat).
    { unfold cnt. cbn. destruct (ws_eq_dec m m); [reflexivity|congruence]. }
    rewrite E1. lia. }
  pose proof (counts _ _ m Hh) as C2. pose proof (counts _ _ m Hh1) as C1.
  unfold holding at 1 in C2. rewrite S3 in C2. rewrite Ev in C2. rewrite !cnt_app in C2. rewrite Ev, cnt_app in HA.
  assert (Hab: cnt (f_absent m) (on_node v post) = 0%nat).
  { apply cnt_none. intros e He. destruct (f_absent m e) eqn:Ef; [exfalso|reflexivity].
    destruct e as [| | | | |w cc b| | | | | | | | | |]; try discriminate Ef. destruct w as [| |x]; try discriminate Ef. destruct b; try discriminate Ef.
    cbn in Ef. destruct (ws_eq_dec x m) as [->|]; [|discriminate].
    apply in_split in He. destruct He as (a & b & He). rewrite He, app_assoc in Ev.
    assert (Ec: cc = wm_conn m). { eapply (found_conn _ _ Hh m cc false). rewrite Ev. apply in_or_app. right. now left. }
    subst cc. pose proof (found_registered _ _ Hh _ _ _ _ _ Ev) as X. assert (false = true); [|discriminate].
    apply X. apply registered_stay; [exact Hreg|]. intros Hr. apply Hrm. apply on_node_In. rewrite He. apply in_or_app. auto. }
  assert (Pos: (0 < cnt (f_write m) (on_node v post) \/ 0 < cnt (f_skip m) (on_node v post))%nat) by lia.
  destruct Pos as [Pos|Pos]; apply cnt_pos in Pos; destruct Pos as (e & He & Hf).
  - left. destruct e as [| | | | | |w cc t ok| | | | | | | | |]; try discriminate Hf. destruct w as [| |x]; try discriminate Hf. cbn in Hf.
    destruct (ws_eq_dec x m) as [->|]; [|discriminate]. exists ok.
    destruct (write_hist _ _ Hh (ByListener m) cc t ok) as (-> & -> & _); [rewrite Ev; apply in_or_app; auto|].
    now apply on_node_In.
  - right. destruct e; try discriminate Hf. cbn in Hf.
    destruct (ws_eq_dec m0 m) as [->|]; [|discriminate]. split; [now apply on_node_In|].
    destruct (skip_received _ _ Hh m) as (tx & Htx); [rewrite Ev; apply in_or_app; auto|]. exists tx. now apply on_node_In.
Qed.

(** The acknowledgement comes back. *)
Lemma acknowledged c0 c log u m v w cc t ok a b :
  creachable c0 c log -> settled c -> (u < cl_size c0)%nat -> (v < cl_size c0)%nat ->
  n_bus (cl_node c0 v) <> n_bus (cl_node c0 u) -> w = ByListener m -> wm_source m = n_bus (cl_node c0 u) ->
  n_bcast (cl_node c0 v) = true ->
  In (v, NWrite w cc t ok) log ->
  ~ In (v, NOutFail w) log -> (forall x, ~ In (v, NForward x false) log) ->
  on_node u log = a ++ NStarted :: b -> heard a = [] ->
  exists t, In (u, NWorker (LRecord (wm_id m) Received t)) log.
Proof.
  intros R Hset Hu Hv Hb -> Hsrc Hbc Hw Hof Hff Ea Ha.
  pose proof (creachable_node _ _ _ R v) as Hhv. pose proof (creachable_node _ _ _ R u) as Hhu.
  destruct (static_hist _ _ _ R) as [Esz S]. destruct (S v) as (_ & Ebv & Ecv & _). destruct (S u) as (_ & Ebu & _).
  destruct (Hset v ltac:(rewrite Esz; exact Hv)) as (V1 & _ & _ & _ & V3).
  destruct (Hset u ltac:(rewrite Esz; exact Hu)) as (_ & U1 & U2 & U3 & _).
  apply on_node_In in Hw. destruct (acked_hist _ _ Hhv _ _ _ _ Hw) as [H|[H|[H|H]]]; [congruence| | |congruence].
  2:{ exfalso. apply Hof. now apply on_node_In. }
  assert (G: In (MsgAck (wm_source m) (wm_id m)) (given (on_node v log))) by (apply In_given; eauto).
  rewrite (conserve_out _ _ Hhv), V1, app_nil_r in G. apply in_map_iff in G. destruct G as (x & Ex & Hx).
  pose proof (forwarded_source _ _ Hhv _ Hx) as Esrc. apply In_forwarded in Hx. destruct Hx as (okf & Hx). apply on_node_In in Hx.
  destruct okf; [|exfalso; eapply Hff; exact Hx].
  assert (P: In x (published log)) by (apply In_published; eauto).
  rewrite (bus_hist _ _ _ R u), U1, app_nil_r in P.
  assert (K: In (wr_message x) (heard (on_node u log))).
  { rewrite <- (app_nil_r (heard _)), <- U2, <- (conserve_in _ _ Hhu). apply in_map. apply filter_In. split; [exact P|].
    apply relevant_addressed. split; [congruence|]. intros node id En. rewrite Ex in En. inversion En. congruence. }
  rewrite Ex in K. rewrite Ea in K. change (a ++ NStarted :: b) with (a ++ [NStarted] ++ b) in K.
  rewrite heard_app, Ha in K. cbn [app] in K. change (NStarted :: b) with ([NStarted] ++ b) in K. rewrite heard_app in K. cbn [heard flat_map app] in K.
  apply In_heard in K. apply in_split in K. destruct K as (b1 & b2 & ->).
  destruct (heard_received _ _ Hhu (a ++ NStarted :: b1) (wm_source m) (wm_id m) b2) as (wi & Hwi).
  { rewrite Ea. now rewrite <- app_assoc. }
  { apply in_or_app. right. now left. }
  assert (Q: In (wm_id m, Received) (statuses (to_tracker (on_node u log)))) by (apply In_statuses, In_to_tracker; eauto).
  rewrite (conserve_statuses _ _ Hhu), U3 in Q. cbn in Q. rewrite app_nil_r in Q. apply In_records in Q. destruct Q as (tt & Q).
  exists tt. apply on_node_In. now apply In_tracker_log.
Qed.

(** ** The bus goes quiet *)
Local Open Scope nat_scope.
Definition w_in (N : nat) (m : bus_message) : nat := match m with MsgWs _ => 3 * N + 7 | MsgAck _ _ => 2 end.
Definition w_sub (N : nat) (m : bus_message) : nat := w_in N m + 1.
Definition w_out (N : nat) (m : bus_message) : nat := N * w_sub N m + 1.
Definition w_listener (N : nat) (s : listener) : nat :=
  match s with LIdle => 0 | LAck _ => 3 * N + 2 | LDeliver _ => 3 * N + 3 | LLookup _ => 3 * N + 4 | LChecking _ => 3 * N + 5 end.
Definition w_subs (N : nat) (l : list wrapped) : nat := list_sum (map (fun w => w_sub N (wr_message w)) l).
Definition w_node (N : nat) (n : node) : nat :=
  list_sum (map (w_out N) (n_out n)) + w_subs N (n_sub n) + list_sum (map (w_in N) (n_in n)) +
  length (n_inbox n) + w_listener N (n_listener n).

Lemma sum_app a b : list_sum (a ++ b) = list_sum a + list_sum b.
Proof. exact (list_sum_app a b). Qed.
Lemma list_sum_cons x l : list_sum (x :: l) = x + list_sum l. Proof. reflexivity. Qed.

Ltac slia := unfold list_sum in *; lia.

Lemma step_weight N n n' l ws ev : internal ev = true -> nstep n ev = Some (n', l, ws) ->
  w_node N n' + N * w_subs N ws + 1 <= w_node N n.
Proof.
  intros Hi H. destruct ev as [c|c| |c id text inform wait|k ok|now|wev|ok|ok|ok|]; try discriminate Hi; cbn in H.
  - destruct (n_inbox n) as [|m rest] eqn:Em; [discriminate|].
    destruct m as [id st|id tx|id tx]; cbn in H.
    + inversion H; subst. unfold w_node. cbn. rewrite Em. cbn. unfold w_subs. cbn. slia.
    + destruct (n_listener n) as [|x|x|x|x] eqn:El; cbn in H;
        try (inversion H; subst; unfold w_node; cbn; rewrite Em, El; unfold w_subs; cbn; slia).
      destruct (check_answer _ _); inversion H; subst; unfold w_node; cbn; rewrite Em, El; unfold w_subs; cbn; slia.
    + inversion H; subst. unfold w_node. cbn. rewrite Em. cbn. unfold w_subs. cbn. slia.
  - destruct ok; [|discriminate]. destruct (n_listener n) as [|x|x|x|x] eqn:El; try discriminate H.
    + destruct (n_in n) as [|[m|node id] rest] eqn:Ein; [discriminate| |]; unfold to_worker in H; cbn in H;
        destruct (n_started n); inversion H; subst; unfold w_node; cbn; rewrite Ein, El; unfold w_subs; cbn; rewrite ?app_length; cbn; slia.
    + inversion H; subst. unfold w_node; cbn. rewrite El. unfold w_subs. cbn. destruct (has_conn _ _); cbn; slia.
    + inversion H; subst. unfold w_node; cbn. rewrite El. unfold w_subs. cbn. slia.
    + destruct (n_bcast n); inversion H; subst; unfold w_node; cbn; rewrite El; unfold w_subs; cbn; rewrite ?map_app, ?sum_app; cbn;
        unfold w_out, w_sub, w_in; slia.
  - destruct ok; [|discriminate]. destruct (n_out n) as [|m rest] eqn:Eo; [discriminate|]. inversion H; subst.
    unfold w_node; cbn. rewrite Eo. unfold w_subs. cbn [map wr_message]. rewrite !list_sum_cons. change (list_sum []) with 0.
    replace (w_out N m) with (N * w_sub N m + 1) by reflexivity. rewrite Nat.add_0_r. slia.
  - destruct (n_sub n) as [|w rest] eqn:Es; [discriminate|]. inversion H; subst. unfold w_node; cbn. rewrite Es. unfold w_subs.
    cbn [map]. rewrite !list_sum_cons, map_app, sum_app. unfold w_sub at 2. destruct (relevant _ _); cbn; slia.
Qed.

Definition weight (N : nat) (f : nat -> node) : nat := list_sum (map (fun i => w_node N (f i)) (seq 0 N)).

Lemma weight_update (f g : nat -> nat) i x d : forall l, NoDup l -> In i l ->
  (forall j, j <> i -> g j = f j + d) -> g i = x + d ->
  list_sum (map g l) + f i = list_sum (map f l) + x + length l * d.
Proof.
  induction l as [|j l IH]; intros Hd Hi Hg Hx; [destruct Hi|]. inversion Hd; subst. cbn [map length]. rewrite !list_sum_cons.
  destruct (Nat.eq_dec j i) as [->|Hne].
  - assert (E: list_sum (map g l) = list_sum (map f l) + length l * d).
    { clear - H1 Hg. induction l as [|k l IH]; [reflexivity|]. cbn [map length]. rewrite !list_sum_cons.
      rewrite IH by (intros X; apply H1; now right). rewrite Hg; [lia|]. intros ->. apply H1. now left. }
    rewrite E, Hx. lia.
  - destruct Hi as [Hi|Hi]; [congruence|]. specialize (IH H2 Hi Hg Hx). rewrite (Hg j Hne). lia.
Qed.

Lemma w_publish N ws n : w_node N (publish ws n) = w_node N n + w_subs N ws.
Proof. unfold w_node, publish. cbn. unfold w_subs. rewrite map_app, sum_app. slia. Qed.

Lemma cstep_weight c i ev c' out : internal ev = true -> cstep c i ev = Some (c', out) ->
  cl_size c' = cl_size c /\ weight (cl_size c) (cl_node c') + 1 <= weight (cl_size c) (cl_node c).
Proof.
  intros Hi H. unfold cstep in H. destruct (Nat.ltb_spec i (cl_size c)) as [Hl|]; [|discriminate].
  destruct (nstep (cl_node c i) ev) as [[[n' l] ws]|] eqn:E; [|discriminate]. inversion H; subst. cbn. split; [reflexivity|].
  set (N := cl_size c) in *. pose proof (step_weight N _ _ _ _ _ Hi E) as W. unfold weight.
  pose proof (weight_update (fun j => w_node N (cl_node c j))
    (fun j => w_node N (publish ws (if Nat.eqb j i then n' else cl_node c j))) i (w_node N n') (w_subs N ws) (seq 0 N)
    (seq_NoDup _ _)) as U.
  cbn beta in U. rewrite seq_length in U.
  assert (In i (seq 0 N)) by (apply in_seq; lia).
  specialize (U H0). lapply U; [clear U; intros U|].
  - lapply U; [clear U; intros U; slia|]. rewrite Nat.eqb_refl. apply w_publish.
  - intros j Hj. rewrite (proj2 (Nat.eqb_neq j i) Hj). apply w_publish.
Qed.

Lemma crun_weight evs : forall c log c' log', (forall i ev, In (i, ev) evs -> internal ev = true) -> crun c log evs = Some (c', log') ->
  length evs + weight (cl_size c) (cl_node c') <= weight (cl_size c) (cl_node c).
Proof.
  induction evs as [|[i ev] evs IH]; intros c log c' log' Hi H; cbn in H.
  - inversion H; subst. cbn. lia.
  - destruct (cstep c i ev) as [[c1 out]|] eqn:E; [|discriminate].
    apply cstep_weight in E; [|eapply Hi; now left]. destruct E as [Es W]. apply IH in H; [|intros; eapply Hi; right; eassumption].
    rewrite Es in H. cbn [length]. lia.
Qed.

Lemma node_progress n l : nhist n l ->
  (n_out n = [] /\ n_sub n = [] /\ n_in n = [] /\ n_inbox n = [] /\ n_listener n = LIdle) \/
  exists ev, internal ev = true /\ nstep n ev <> None.
Proof.
  intros Hh. pose proof (checks_hist _ _ Hh) as C. unfold asked in C.
  destruct (n_out n) as [|m r] eqn:E1; [|right; exists (EForward true); cbn; rewrite E1; split; [reflexivity|discriminate]].
  destruct (n_sub n) as [|m r] eqn:E2; [|right; exists ETake; cbn; rewrite E2; split; [reflexivity|discriminate]].
  destruct (n_inbox n) as [|m r] eqn:E3.
  2:{ right. exists (EWorkerRecv 0%N). cbn. rewrite E3. split; [reflexivity|].
      destruct m; cbn; try discriminate. destruct (n_listener n); try discriminate. destruct (check_answer _ _); discriminate. }
  destruct (n_listener n) as [|x|x|x|x] eqn:E4; cbn in C; try discriminate C.
  - destruct (n_in n) as [|[m|node id] r] eqn:E5; [left; auto| |]; right; exists (EListen true); cbn; rewrite E4, E5; unfold to_worker; cbn;
      destruct (n_started n); split; try reflexivity; discriminate.
  - right. exists (EListen true). cbn. rewrite E4. split; [reflexivity|discriminate].
  - right. exists (EListen true). cbn. rewrite E4. split; [reflexivity|discriminate].
  - right. exists (EListen true). cbn. rewrite E4. split; [reflexivity|]. destruct (n_bcast n); discriminate.
Qed.

Lemma cluster_progress c0 c log : creachable c0 c log ->
  settled c \/ exists i ev, internal ev = true /\ cstep c i ev <> None.
Proof.
  intros R. unfold settled.
  assert (G: forall k, k <= cl_size c -> (forall i, i < k -> let n := cl_node c i in
     n_out n = [] /\ n_sub n = [] /\ n_in n = [] /\ n_inbox n = [] /\ n_listener n = LIdle) \/
     exists i ev, internal ev = true /\ cstep c i ev <> None).
  { induction k as [|k IH]; intros Hk; [left; intros i Hi; lia|].
    destruct (IH ltac:(lia)) as [IH'|IH']; [|now right].
    destruct (node_progress _ _ (creachable_node _ _ _ R k)) as [Hn|(ev & He & Hs)].
    - left. intros i Hi. destruct (Nat.eq_dec i k) as [->|]; [exact Hn|]. apply IH'. lia.
    - right. exists k, ev. split; [exact He|]. unfold cstep. rewrite (proj2 (Nat.ltb_lt _ _)) by lia.
      destruct (nstep (cl_node c k) ev) as [[[? ?] ?]|]; [discriminate|contradiction]. }
  apply (G (cl_size c)). lia.
Qed.

Lemma publications_cnt bus m ws :
  cnt (f_bus m) (map wr_message (filter (relevant bus) ws)) = publications bus m ws.
Proof.
  unfold publications. induction ws as [|w ws IH]; [reflexivity|]. cbn [filter].
  destruct (relevant bus w) eqn:Er.
  - apply relevant_addressed in Er. destruct Er as [E _]. destruct (string_dec (wr_source w) bus); [contradiction|].
    cbn [map]. unfold cnt. cbn [filter]. unfold cnt in IH. unfold f_bus at 1. unfold isb.
    destruct (wr_message w) as [x|]; [|exact IH]. destruct (ws_eq_dec x m); cbn; now rewrite IH.
  - rewrite IH. destruct (string_dec (wr_source w) bus) as [_|E]; [reflexivity|].
    destruct (wr_message w) as [x|node id] eqn:Em; [|reflexivity]. exfalso. assert (relevant bus w = true); [|congruence].
    apply relevant_addressed. split; [exact E|]. rewrite Em. discriminate.
Qed.
Lemma drops_cnt m l : remote_drops m l = cnt (f_absent m) l + cnt (f_skip m) l.
Proof.
  unfold remote_drops, cnt. induction l as [|e l IH]; [reflexivity|]. cbn [filter].
  destruct e as [| | | | |w cc b| | | | | | | |x|x|]; cbn [f_absent f_skip]; try exact IH.
  - destruct w as [| |x]; try exact IH. destruct b; [exact IH|]. unfold isb. destruct (ws_eq_dec x m); cbn; rewrite IH; lia.
  - unfold isb. destruct (ws_eq_dec x m); cbn; rewrite IH; lia.
Qed.
Lemma writes_bound c0 c log v m : creachable c0 c log ->
  remote_writes m (on_node v log) + remote_drops m (on_node v log) <= publications (n_bus (cl_node c0 v)) m (published log).
Proof.
  intros R. pose proof (heard_bound _ _ _ v m R) as H. rewrite publications_cnt in H. rewrite drops_cnt.
  pose proof (counts _ _ m (creachable_node _ _ _ R v)) as C. change (remote_writes m (on_node v log)) with (cnt (f_write m) (on_node v log)). lia.
Qed.
Lemma writes_all c0 c log v m : creachable c0 c log -> settled c -> v < cl_size c0 ->
  remote_writes m (on_node v log) + remote_drops m (on_node v log) = publications (n_bus (cl_node c0 v)) m (published log).
Proof.
  intros R Hs Hv. destruct (static_hist _ _ _ R) as [Esz _]. destruct (Hs v ltac:(rewrite Esz; exact Hv)) as (_ & S1 & S2 & _ & S3).
  pose proof (heard_all _ _ _ v m R S1 S2) as H. rewrite publications_cnt in H. rewrite drops_cnt.
  pose proof (counts _ _ m (creachable_node _ _ _ R v)) as C. unfold holding in C. rewrite S3 in C.
  change (remote_writes m (on_node v log)) with (cnt (f_write m) (on_node v log)). lia.
Qed.

(** An answer "received" makes the listener drop the message. *)
Lemma received_skipped n l : nhist n l -> forall pre id tx post, l = pre ++ NWorker (LCheck id tx Received) :: post ->
  exists m rest, post = NSkip m :: rest /\ wm_id m = id.
Proof.
  induction 1 as [name bus bcast cf | n l n' out ws Hh IH Ht | n l ws _ IH]; [intros [|] ? ? ? X; discriminate X| |exact IH].
  intros pre id tx post E. apply app_split_cases in E. destruct E as [(r & E & ->)|(o1 & -> & E)].
  - destruct (IH _ _ _ _ E) as (m & rest & -> & Em). exists m, (rest ++ out). auto.
  - assert (Hi: In (NWorker (LCheck id tx Received)) out) by (rewrite E; apply in_or_app; right; now left).
    pose proof (checks_hist n l Hh) as C. unfold asked in C.
    tcases Ht; try (apply in_returned in Hi; destruct Hi as [Hi|(? & Hi)]; [|discriminate Hi]); cbn in Hi; try (intuition discriminate; fail).
    + destruct o1 as [|x [|y [|]]]; try discriminate E. inversion E; subst. rewrite H, H0 in C. cbn in C. inversion C; subst.
      exists m, []. auto.
    + destruct Hi as [Hi|[]]. inversion Hi; subst. congruence.
    + exfalso. rewrite H in C. cbn in C. destruct (n_listener n); try discriminate C. now eapply H0.
    + exfalso. apply in_map_iff in Hi. destruct Hi as (e & He & Hin). inversion He; subst. apply forallb_forall with (x := LCheck id tx Received) in H1; [discriminate|exact Hin].
Qed.

(** Calls: the log of a call is a prefix of a complete trace. *)
Lemma call_prefix n l k conn id text inform wait : nhist n l -> In (NCall k conn id text inform wait) l ->
  exists rest rec reg, call_trace (n_name n) (n_bcast n) k conn id text inform wait rec reg (filter (of_call k) l ++ rest) /\
    ((exists r, In (NReturn k r) l) -> rest = []) /\
    (started_before k l -> rec = true /\ reg = true).
Proof.
  intros Hh Hc. destruct (calls_hist n l Hh) as [IJ IN].
  destruct (nth_error (n_jobs n) k) as [j|] eqn:Ej.
  2:{ exfalso. apply nth_error_None in Ej. apply IN in Ej. exact (tag_call _ _ _ _ _ _ _ Hc Ej). }
  assert (Ef: j_conn j = conn /\ j_id j = id /\ j_text j = text /\ j_inform j = inform /\ j_wait j = wait).
  { apply (tagged k) in Hc; [|cbn; apply Nat.eqb_refl]. pose proof (IJ _ _ Ej) as (rec & reg & _ & _ & _ & H). cbn zeta in H.
    assert (X: forall r, filter (of_call k) l = NCall k (j_conn j) (j_id j) (j_text j) (j_inform j) (j_wait j) :: r ->
      (forall c1 i1 t1 n1 w1, ~ In (NCall k c1 i1 t1 n1 w1) r) ->
      j_conn j = conn /\ j_id j = id /\ j_text j = text /\ j_inform j = inform /\ j_wait j = wait).
    { intros r Er Hr. rewrite Er in Hc. destruct Hc as [Hc|Hc]; [inversion Hc; auto|]. now apply Hr in Hc. }
    destruct (j_phase j).
    - destruct H as [H _]. eapply X; [exact H|]. intros; intros [].
    - eapply X; [exact H|]. cbn. intros; intuition discriminate.
    - destruct H as [H _]. eapply X; [exact H|]. cbn. intros; intuition discriminate.
    - destruct H as [H _]. eapply X; [exact H|]. destruct rec; cbn; intros; intuition discriminate.
    - destruct H as [H _]. eapply X; [exact H|]. destruct rec; cbn; intros; intuition discriminate.
    - destruct H as [H _]. eapply X; [exact H|]. destruct rec; cbn; intros; intuition discriminate.
    - remember (filter (of_call k) l) as t eqn:Et. destruct H as [rec reg ok|rec reg Hb|rec reg Hb|rec reg r9 Hb Hw Hr];
        eapply X; try reflexivity; try destruct rec; try destruct (j_wait j && reg)%bool; cbn; intros; intuition discriminate. }
  destruct Ef as (<- & <- & <- & <- & <-).
  pose proof (before_return _ _ _ _ Hh Ej) as BR. pose proof (IJ _ _ Ej) as (rec & reg & H1 & H2 & H3 & H). cbn zeta in H.
  assert (NR: forall rest : list nlog, match j_phase j with PDone _ => False | _ => True end -> (exists r, In (NReturn k r) l) -> rest = []).
  { intros rest Hp (r & Hr). destruct (j_phase j); try (now apply BR in Hr). destruct Hp. }
  destruct (j_phase j) eqn:Ep.
  - destruct H as [H _]. exists [NFound (ByCall k) (j_conn j) true; NWrite (ByCall k) (j_conn j) (j_text j) true; NReturn k RSent], true, true.
    rewrite H. split; [|auto]. apply (CtLocal _ _ _ _ _ _ _ _ true true true).
  - exists [NWrite (ByCall k) (j_conn j) (j_text j) true; NReturn k RSent], true, true.
    rewrite H. split; [|auto]. apply (CtLocal _ _ _ _ _ _ _ _ true true true).
  - destruct H as (H & Hb & _). exists [rec_entry k j; NOutFail (ByCall k); NReturn k RBroadcastError], true, true.
    rewrite H. split; [|auto]. apply (CtNoBus _ _ _ _ _ _ _ _ true true). exact Hb.
  - destruct H as (H & Hb). exists [NOutFail (ByCall k); NReturn k RBroadcastError], rec, reg.
    rewrite H. split; [|split; [auto|]].
    + rewrite <- app_assoc. apply (CtNoBus _ _ _ _ _ _ _ _ rec reg). exact Hb.
    + intros Hs. apply H3 in Hs. auto.
  - destruct H as (H & Hb & Hw & _). exists (ifb (j_wait j && reg) [NInbox (ByCall k) (MWait (j_id j) k)] ++ [NReturn k RSent]), rec, reg.
    rewrite H. split; [|split; [auto|]].
    + rewrite <- !app_assoc. apply (CtRemote _ _ _ _ _ _ _ _ rec reg); auto.
    + intros Hs. apply H3 in Hs. auto.
  - destruct H as (H & Hb & Hw & Hr). exists [NReturn k RSent], rec, reg.
    rewrite H. split; [|split; [auto|]].
    + rewrite <- !app_assoc. subst reg.
      pose proof (CtRemote (n_name n) (n_bcast n) k (j_conn j) (j_id j) (j_text j) (j_inform j) (j_wait j) rec true RSent Hb ltac:(auto) ltac:(auto)) as T.
      rewrite Hw in T. cbn [andb ifb] in T. unfold head2; rewrite Hw; exact T.
    + intros Hs. apply H3 in Hs. auto.
  - exists [], rec, reg. rewrite app_nil_r. split; [exact H|]. split; [auto|]. intros Hs. apply H3 in Hs. auto.
Qed.
