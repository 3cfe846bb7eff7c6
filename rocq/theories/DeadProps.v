(** C150: what a failed notice of a loss does to the rest of the node. *)
From Verif Require Import Base AckModel AckSpec AckProofs ClusterModel ClusterSpec ClusterTrans ClusterNode ClusterCalls ClusterSafety ClusterDeliver ClusterProps DeadSpec DeadProofs.
Open Scope string_scope.
Local Open Scope list_scope.

(** Once a notice of a loss could not be written to the socket of its client, the node
    never again resends a message nor tells any client of a loss, for as long as it
    runs and whatever else happens in the cluster. *)
Theorem C150_task_dies_refuted :
  forall c0 c log u pre e post, creachable c0 c log -> on_node u log = pre ++ e :: post -> failed_notice e = true ->
  forall x, In x post -> of_task x = false.
Proof.
  intros c0 c log u pre e post R E Hf. destruct (dead_hist _ _ (creachable_node _ _ _ R u)) as [_ J]. eapply J; eauto.
Qed.

(** Then a call that waits for a message of which too few sends are recorded for it to
    be given up waits for ever, unless the message is acknowledged or sent again by
    another call: it is never told that the message is lost. *)
Theorem C150_waits_forever_refuted :
  forall c0 c log u k id e m cl n evs c' new, creachable c0 c log ->
  In (u, e) log -> failed_notice e = true ->
  In (u, NInbox (ByCall k) (MWait id k)) log -> (forall r, ~ In (u, NReturn k r) log) ->
  current id (tracker_log (on_node u log)) (Pending m cl) ->
  sends id (tracker_log (on_node u log)) n -> (n < cf_max (n_cf (cl_node c u)))%N ->
  (forall st, ~ In (MStatus id st) (n_inbox (cl_node c u))) ->
  crun c log evs = Some (c', log ++ new) ->
  (forall w st, In (u, NInbox w (MStatus id st)) new -> w = ByResend) ->
  forall r, ~ In (u, NReturn k r) (log ++ new).
Proof.
  intros c0 c log u k id e m cl n evs c' new R He Hf Hw Hr Hc Hn Hl Hq Hrun No r Hi.
  pose proof (creachable_node _ _ _ R u) as Hh. apply in_app_or in Hi. destruct Hi as [Hi|Hi]; [exact (Hr _ Hi)|].
  revert Hi. eapply stuck_run; [exact R| |exact Hrun|exact No].
  split; [|split; [|split; [exact Hq|]]].
  - apply (dead_hist _ _ Hh). exists e. split; [now apply on_node_In|exact Hf].
  - eapply held_iff; eauto.
  - apply (waiting_job _ _ _ _ Hh); [now apply on_node_In|]. intros r' Hi. apply (Hr r'). now apply on_node_In.
Qed.

(** As long as no notice has failed, the task can work off everything it has been
    given: every message to resend is looked up again, and every client to be told of
    a loss that is connected to the node is told. *)
Theorem C150_worked_off :
  forall c0 c log u, creachable c0 c log -> (u < cl_size c)%nat -> In (u, NStarted) log ->
  (forall e, In (u, e) log -> failed_notice e = false) ->
  exists evs c' new, Forall (fun x => x = (u, EConsumer true)) evs /\ crun c log evs = Some (c', log ++ new) /\
    n_actions (cl_node c' u) = [] /\
    (forall id clients x, In (ActLost id clients) (n_actions (cl_node c u)) -> In x clients -> registered x (on_node u log) ->
       In (u, NWriteLost x id true) new) /\
    (forall conn id text inform, In (Resend conn id text inform) (n_actions (cl_node c u)) ->
       exists found, In (u, NFound ByResend conn found) new).
Proof.
  intros c0 c log u R Hu Hs No. pose proof (creachable_node _ _ _ R u) as Hh.
  destruct (works_all _ _ Hh) as (n' & l & W & C & A & V).
  - apply (started_log _ _ Hh). now apply on_node_In.
  - intros D. apply (dead_hist _ _ Hh) in D. destruct D as (e & He & Hf). apply on_node_In in He. rewrite (No e He) in Hf. discriminate.
  - destruct (works_run c log u n' l Hu W) as (evs & c' & F & E & N & _).
    exists evs, c', (map (fun e => (u, e)) l). split; [exact F|]. split; [exact E|]. split; [now rewrite N|]. split.
    + intros id clients x Ha Hx Hr. apply in_map_iff. eexists. split; [reflexivity|]. apply (V _ Ha); [exact Hx|].
      now apply (conns_registered _ _ x Hh).
    + intros conn id text inform Ha. exists (has_conn conn (cl_node c u)). apply in_map_iff. eexists. split; [reflexivity|]. exact (V _ Ha).
Qed.

(** Node 0 loses "m1", whose sender "w" is to be told; "w" is gone and the notice fails.
    A second call waits for "m2", which no node acknowledges: by the theorem it waits
    for ever. *)
Definition dead_evs : list (nat * node_event) :=
  [(0, EStart); (0, EAdd "w");
   (0, ECall "gone" "m1" "x" ["w"] false); (0, EJob 0 true); (0, EJob 0 true); (0, EJob 0 true);
   (0, EWorkerRecv 5%N);
   (0, ECall "gone" "m1" "x" ["w"] false); (0, EJob 1 true); (0, EJob 1 true); (0, EJob 1 true);
   (0, EWorkerRecv 6%N);
   (0, ECall "far" "m2" "y" [] true); (0, EJob 2 true); (0, EJob 2 true); (0, EJob 2 true); (0, EJob 2 true);
   (0, EWorkerRecv 20%N); (0, EWorkerRecv 20%N);
   (0, EWorker (WTick 25)); (0, EWorker WScan); (0, EWorker WSend); (0, EWorker WForget);
   (0, EConsumer true); (0, EConsumer false)].
(** Later the checker does decide that "m2" is to be resent, and nothing comes of it. *)
Definition later_evs : list (nat * node_event) :=
  [(0, EWorker (WTick 90)); (0, EWorker WScan); (0, EWorker WSend); (0, EWorker (WTick 900)); (0, EWorker WScan); (0, EWorker WSend)].
Lemma after_more c0 a b : runs c0 (a ++ b) = true ->
  crun (fst (after c0 a)) (snd (after c0 a)) b =
  Some (fst (after c0 (a ++ b)), snd (after c0 a) ++ skipn (length (snd (after c0 a))) (snd (after c0 (a ++ b)))).
Proof.
  unfold runs, after. rewrite crun_app. destruct (crun c0 [] a) as [[c l]|]; [|discriminate]. cbn [fst snd].
  destruct (crun c l b) as [[c' l']|] eqn:E; [|discriminate]. intros _. destruct (crun_log _ _ _ _ _ E) as (new & ->). cbn [fst snd].
  now rewrite skipn_app, skipn_all, Nat.sub_diag.
Qed.
Example C150_nonvacuous :
  let c := fst (after demo0 dead_evs) in let log := snd (after demo0 dead_evs) in
  creachable demo0 c log /\
  (In (0, NWriteLost "w" "m1" false) log /\ In (0, NInbox (ByCall 2) (MWait "m2" 2)) log /\ (forall r, ~ In (0, NReturn 2 r) log)) /\
  (current "m2" (tracker_log (on_node 0 log)) (Pending "y" []) /\ sends "m2" (tracker_log (on_node 0 log)) 1%N /\
   cf_max (n_cf (cl_node c 0)) = 2%N /\ n_inbox (cl_node c 0) = []) /\
  exists c' new, crun c log later_evs = Some (c', log ++ new) /\ (forall w st, ~ In (0, NInbox w (MStatus "m2" st)) new) /\
    n_actions (cl_node c' 0) = [Resend "m2" "m2" "y" []; Resend "m2" "m2" "y" []].
Proof.
  cbv zeta. split; [apply after_reach; [exact demo0_fresh|vm_compute; reflexivity]|].
  split; [split; [vm_compute; intuition|split; [vm_compute; intuition|]]|split].
  - intros r H. apply (none_in (fun e => match snd e with NReturn 2 _ => false | _ => true end)) in H; [discriminate H|]. vm_compute. reflexivity.
  - split; [|split; [|split; vm_compute; reflexivity]].
    + apply view_current. exists {| en_status := Pending "y" []; en_attempts := 1; en_last := Some 20%N |}. split; vm_compute; reflexivity.
    + apply sends_iff. vm_compute. reflexivity.
  - exists (fst (after demo0 (dead_evs ++ later_evs))), (skipn (length (snd (after demo0 dead_evs))) (snd (after demo0 (dead_evs ++ later_evs)))).
    split; [apply after_more; vm_compute; reflexivity|]. split; [|vm_compute; reflexivity].
    intros w st H. apply (none_in (fun e => match snd e with NInbox _ (MStatus _ _) => false | _ => true end)) in H; [discriminate H|]. vm_compute. reflexivity.
Qed.
(** ... and with the client still there, the same node goes on. *)
Definition alive_evs : list (nat * node_event) := firstn 23 dead_evs ++ firstn 3 later_evs.
Example C150_worked_off_nonvacuous :
  let c := fst (after demo0 alive_evs) in let log := snd (after demo0 alive_evs) in
  creachable demo0 c log /\ In (0, NStarted) log /\ (forall e, In (0, e) log -> failed_notice e = false) /\
  n_actions (cl_node c 0) = [ActLost "m1" ["w"]; Resend "m2" "m2" "y" []] /\ registered "w" (on_node 0 log).
Proof.
  cbv zeta. assert (R: creachable demo0 (fst (after demo0 alive_evs)) (snd (after demo0 alive_evs)))
    by (apply after_reach; [exact demo0_fresh|vm_compute; reflexivity]).
  split; [exact R|]. split; [vm_compute; intuition|]. split; [|split; [vm_compute; reflexivity|]].
  - intros e H. apply (none_in (fun e => negb (failed_notice (snd e)))) in H; [|vm_compute; reflexivity].
    cbn in H. now destruct (failed_notice e).
  - apply (conns_registered _ _ "w" (creachable_node _ _ _ R 0)). vm_compute. reflexivity.
Qed.

Print Assumptions C150_task_dies_refuted.
Print Assumptions C150_waits_forever_refuted.
Print Assumptions C150_worked_off.
