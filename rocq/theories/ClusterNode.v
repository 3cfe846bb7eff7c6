(** Invariants of one node over its whole history. *)
From Verif Require Import Base AckModel AckSpec AckProofs ClusterModel ClusterSpec ClusterTrans.
Open Scope string_scope.
Local Open Scope list_scope.

Ltac tcases H := destruct H; try match goal with S : strans _ _ _ _ _ _ _ |- _ => destruct S end.

Lemma returned_nil k j : given (returned k j) = [] /\ forwarded (returned k j) = [] /\ taken (returned k j) = [] /\
  heard (returned k j) = [] /\ tracker_log (returned k j) = [] /\ to_tracker (returned k j) = [].
Proof. unfold returned. destruct (j_phase j); repeat split; reflexivity. Qed.

Lemma given_app a b : given (a ++ b) = given a ++ given b. Proof. apply flat_map_app. Qed.
Lemma forwarded_app a b : forwarded (a ++ b) = forwarded a ++ forwarded b. Proof. apply flat_map_app. Qed.
Lemma taken_app a b : taken (a ++ b) = taken a ++ taken b. Proof. apply flat_map_app. Qed.
Lemma heard_app a b : heard (a ++ b) = heard a ++ heard b. Proof. apply flat_map_app. Qed.
Lemma tracker_log_app a b : tracker_log (a ++ b) = tracker_log a ++ tracker_log b. Proof. apply flat_map_app. Qed.
Lemma to_tracker_app a b : to_tracker (a ++ b) = to_tracker a ++ to_tracker b. Proof. apply flat_map_app. Qed.

Lemma worker_only es : given (map NWorker es) = [] /\ forwarded (map NWorker es) = [] /\ taken (map NWorker es) = [] /\
  heard (map NWorker es) = [] /\ tracker_log (map NWorker es) = es /\ to_tracker (map NWorker es) = [].
Proof.
  induction es as [|e es (A & B & C & D & E & F)]; [repeat split; reflexivity|]. cbn.
  repeat split; try assumption. unfold tracker_log in E. now rewrite E.
Qed.

Ltac strip := repeat match goal with
  | |- context [given (?l ++ returned ?k ?j)] => rewrite (given_app l), (proj1 (returned_nil k j)), app_nil_r
  | |- context [forwarded (?l ++ returned ?k ?j)] => rewrite (forwarded_app l), (proj1 (proj2 (returned_nil k j))), app_nil_r
  | |- context [taken (?l ++ returned ?k ?j)] => rewrite (taken_app l), (proj1 (proj2 (proj2 (returned_nil k j)))), app_nil_r
  | |- context [heard (?l ++ returned ?k ?j)] => rewrite (heard_app l), (proj1 (proj2 (proj2 (proj2 (returned_nil k j))))), app_nil_r
  | |- context [tracker_log (?l ++ returned ?k ?j)] => rewrite (tracker_log_app l), (proj1 (proj2 (proj2 (proj2 (proj2 (returned_nil k j)))))), app_nil_r
  | |- context [to_tracker (?l ++ returned ?k ?j)] => rewrite (to_tracker_app l), (proj2 (proj2 (proj2 (proj2 (proj2 (returned_nil k j)))))), app_nil_r
  | |- context [given (map NWorker ?l)] => rewrite (proj1 (worker_only l))
  | |- context [forwarded (map NWorker ?l)] => rewrite (proj1 (proj2 (worker_only l)))
  | |- context [taken (map NWorker ?l)] => rewrite (proj1 (proj2 (proj2 (worker_only l))))
  | |- context [heard (map NWorker ?l)] => rewrite (proj1 (proj2 (proj2 (proj2 (worker_only l)))))
  | |- context [tracker_log (map NWorker ?l)] => rewrite (proj1 (proj2 (proj2 (proj2 (proj2 (worker_only l))))))
  | |- context [to_tracker (map NWorker ?l)] => rewrite (proj2 (proj2 (proj2 (proj2 (proj2 (worker_only l))))))
  end.

(** Settings never change. *)
Lemma ntrans_static n n' l ws : ntrans n n' l ws ->
  n_name n' = n_name n /\ n_bus n' = n_bus n /\ n_bcast n' = n_bcast n /\ n_cf n' = n_cf n.
Proof. intros H. tcases H; repeat split; reflexivity. Qed.

(** Bus traffic is conserved, in order. *)
Lemma step_out n n' l ws : ntrans n n' l ws ->
  n_out n ++ given l = map wr_message (forwarded l) ++ n_out n'.
Proof.
  intros H. tcases H; strip; cbn; rewrite ?app_nil_r; try reflexivity.
  now rewrite H.
Qed.

Lemma conserve_out n l : nhist n l -> given l = map wr_message (forwarded l) ++ n_out n.
Proof.
  induction 1 as [| n l n' out ws _ IH Ht | n l ws _ IH]; [reflexivity| |exact IH].
  rewrite given_app, forwarded_app, map_app, IH, <- !app_assoc. f_equal. exact (step_out _ _ _ _ Ht).
Qed.

Lemma step_source n n' l ws : ntrans n n' l ws -> forall w, In w (forwarded l) -> wr_source w = n_bus n.
Proof.
  intros H. tcases H; strip; cbn; intros w0 Hw; try (destruct Hw; fail).
  destruct Hw as [<-|[]]. reflexivity.
Qed.

Lemma forwarded_source n l : nhist n l -> forall w, In w (forwarded l) -> wr_source w = n_bus n.
Proof.
  induction 1 as [| n l n' out ws _ IH Ht | n l ws _ IH]; [intros w []| |exact IH].
  intros w. rewrite forwarded_app. intros Hw. destruct (ntrans_static _ _ _ _ Ht) as (_ & -> & _).
  apply in_app_or in Hw. destruct Hw as [Hw|Hw]; [auto|]. eapply step_source; eauto.
Qed.

Lemma step_in n n' l ws : ntrans n n' l ws ->
  n_in n ++ map wr_message (filter (relevant (n_bus n)) (taken l)) = heard l ++ n_in n'.
Proof.
  intros H. tcases H; strip; cbn; rewrite ?app_nil_r; try reflexivity.
  - now rewrite H0.
  - now rewrite H0.
  - now rewrite H0.
  - now rewrite H0.
  - destruct (relevant (n_bus n) w); reflexivity.
Qed.

Lemma conserve_in n l : nhist n l ->
  map wr_message (filter (relevant (n_bus n)) (taken l)) = heard l ++ n_in n.
Proof.
  induction 1 as [| n l n' out ws _ IH Ht | n l ws _ IH]; [reflexivity| |exact IH].
  destruct (ntrans_static _ _ _ _ Ht) as (_ & -> & _).
  rewrite taken_app, filter_app, map_app, heard_app, IH, <- !app_assoc. f_equal. exact (step_in _ _ _ _ Ht).
Qed.

Lemma step_sub n n' l ws : ntrans n n' l ws -> n_sub n = taken l ++ n_sub n'.
Proof. intros H. tcases H; strip; cbn; try reflexivity. now rewrite H. Qed.

(** What a step publishes is what its log says. *)
Lemma step_ws n n' l ws : ntrans n n' l ws ->
  ws = flat_map (fun e => match e with NForward w true => [w] | _ => [] end) l.
Proof.
  intros H. tcases H; try reflexivity;
    try (unfold returned; match goal with |- context [j_phase ?j] => destruct (j_phase j) end; reflexivity).
  - clear. induction es as [|e es IH]; [reflexivity|exact IH].
  - destruct ok; reflexivity.
Qed.

(** The tracker runs as modelled in AckModel.v. *)
Lemma step_worker n n' l ws : ntrans n n' l ws ->
  (n_worker n' = n_worker n /\ tracker_log l = []) \/
  exists ev, wstep (n_cf n) (n_worker n) ev = Some (n_worker n', tracker_log l).
Proof.
  intros H. tcases H; strip; cbn; try (now left); right; eauto.
Qed.

Lemma tracker_reachable n l : nhist n l -> reachable (n_cf n) (n_worker n) (tracker_log l).
Proof.
  induction 1 as [| n l n' out ws _ IH Ht | n l ws _ IH]; [exists []; reflexivity| |exact IH].
  destruct (ntrans_static _ _ _ _ Ht) as (_ & _ & _ & ->). rewrite tracker_log_app.
  destruct (step_worker _ _ _ _ Ht) as [[-> ->]|(ev & Hs)]; [now rewrite app_nil_r|].
  eapply reachable_step; eauto.
Qed.

(** Statuses reach the tracker completely and in order. *)
Definition statuses (ms : list worker_msg) : list (string * ack_status) :=
  flat_map (fun m => match m with MStatus id st => [(id, st)] | _ => [] end) ms.
Definition records (l : list ack_log) : list (string * ack_status) :=
  flat_map (fun e => match e with LRecord id st _ => [(id, st)] | _ => [] end) l.
Lemma statuses_app a b : statuses (a ++ b) = statuses a ++ statuses b. Proof. apply flat_map_app. Qed.
Lemma records_app a b : records (a ++ b) = records a ++ records b. Proof. apply flat_map_app. Qed.
Lemma records_quiet es : forallb quiet es = true -> records es = [].
Proof.
  induction es as [|e es IH]; [reflexivity|]. cbn. intros H. apply andb_prop in H. destruct H as [He Hs].
  unfold records in IH. rewrite IH by assumption. destruct e; try discriminate; reflexivity.
Qed.

Lemma step_statuses n n' l ws : ntrans n n' l ws ->
  statuses (n_inbox n) ++ statuses (to_tracker l) = records (tracker_log l) ++ statuses (n_inbox n').
Proof.
  intros H. tcases H; strip; rewrite ?records_quiet by assumption; cbn;
    try match goal with E : n_inbox n = _ |- _ => rewrite E end;
    rewrite ?statuses_app; cbn; rewrite ?app_nil_r; try reflexivity.
Qed.

Lemma conserve_statuses n l : nhist n l ->
  statuses (to_tracker l) = records (tracker_log l) ++ statuses (n_inbox n).
Proof.
  induction 1 as [| n l n' out ws _ IH Ht | n l ws _ IH]; [reflexivity| |exact IH].
  rewrite to_tracker_app, tracker_log_app, statuses_app, records_app, IH, <- !app_assoc. f_equal.
  exact (step_statuses _ _ _ _ Ht).
Qed.

(** Connections *)
Lemma reg_other c l : (forall e, In e l -> reg_change c e = None) -> forall i, last_value (reg_change c) i l = i.
Proof. intros H i. now apply last_value_none. Qed.

Lemma has_conn_cons c c' l n : has_conn c (set_conns n (c' :: l)) = (String.eqb c c' || has_conn c (set_conns n l))%bool.
Proof. reflexivity. Qed.
Lemma has_conn_filter c c' n :
  has_conn c (set_conns n (filter (fun x => negb (String.eqb c' x)) (n_conns n))) =
  (negb (String.eqb c' c) && has_conn c n)%bool.
Proof.
  unfold has_conn. cbn. induction (n_conns n) as [|x l IH]; cbn; [now rewrite andb_false_r|].
  destruct (String.eqb_spec c' x) as [->|Hx]; cbn.
  - rewrite IH. rewrite String.eqb_sym. destruct (String.eqb_spec c x); subst; reflexivity.
  - rewrite IH. destruct (String.eqb_spec c x) as [->|]; cbn; [|reflexivity].
    now rewrite (proj2 (String.eqb_neq c' x) Hx).
Qed.

Lemma step_conns n n' l ws c : ntrans n n' l ws ->
  last_value (reg_change c) (Some (has_conn c n)) l = Some (has_conn c n').
Proof.
  intros H. tcases H; try reflexivity;
    try (unfold returned; match goal with |- context [j_phase ?j] => destruct (j_phase j) end; reflexivity).
  - cbn [last_value reg_change]. destruct (string_dec c0 c) as [->|Hne].
    + rewrite has_conn_cons, String.eqb_refl. reflexivity.
    + rewrite has_conn_cons, (proj2 (String.eqb_neq c c0)) by congruence. reflexivity.
  - cbn [last_value reg_change]. rewrite has_conn_filter. destruct (string_dec c0 c) as [->|Hne].
    + rewrite String.eqb_refl. reflexivity.
    + rewrite (proj2 (String.eqb_neq c0 c)) by congruence. reflexivity.
  - apply reg_other. intros e He. apply in_map_iff in He. destruct He as (x & <- & _). reflexivity.
Qed.

Lemma last_value_default {O V} (f : O -> option V) l : forall d v,
  last_value f (Some d) l = Some v -> last_value f None l = Some v \/ (last_value f None l = None /\ v = d).
Proof.
  induction l as [|o l IH] using rev_ind; intros d v.
  - cbn. intros H; inversion H; auto.
  - rewrite !last_value_app. cbn. destruct (f o); [auto|]. apply IH.
Qed.

Lemma conns_value n l c : nhist n l -> last_value (reg_change c) (Some false) l = Some (has_conn c n).
Proof.
  induction 1 as [| n l n' out ws _ IH Ht | n l ws _ IH]; [reflexivity| |exact IH].
  rewrite last_value_app, IH. eapply step_conns; eauto.
Qed.

Lemma conns_registered n l c : nhist n l -> (has_conn c n = true <-> registered c l).
Proof.
  intros H. pose proof (conns_value n l c H) as V. apply last_value_default in V.
  unfold registered. rewrite <- last_value_assigned. destruct V as [V|[V E]]; rewrite V.
  - split; [intros ->; reflexivity|intros X; inversion X; reflexivity].
  - rewrite E. split; discriminate.
Qed.

(** Every entry was put by one step of some earlier state of the node. *)
Definition nput (l : list nlog) : Prop :=
  forall pre e post, l = pre ++ e :: post ->
  exists n0 l0 n1 out ws o1 o2, nhist n0 l0 /\ ntrans n0 n1 out ws /\ out = o1 ++ e :: o2 /\ pre = l0 ++ o1.
Lemma app_split_cases {A} (a b pre : list A) e post : a ++ b = pre ++ e :: post ->
  (exists r, a = pre ++ e :: r /\ post = r ++ b) \/ (exists o1, pre = a ++ o1 /\ b = o1 ++ e :: post).
Proof.
  revert pre. induction a as [|x a IH]; intros pre H; cbn in H.
  - right. exists pre. auto.
  - destruct pre as [|y pre]; cbn in H; inversion H; subst.
    + left. exists a. auto.
    + destruct (IH pre H2) as [(r & -> & ->)|(o1 & -> & E)].
      * left. exists r. auto.
      * right. exists o1. auto.
Qed.
Lemma nhist_put n l : nhist n l -> nput l.
Proof.
  induction 1 as [| n l n' out ws Hh IH Ht | n l ws _ IH]; [intros [|] ? ? ?; discriminate| |exact IH].
  intros pre e post E. apply app_split_cases in E. destruct E as [(r & E & _)|(o1 & -> & E)].
  - destruct (IH _ _ _ E) as (n0 & l0 & n1 & out0 & ws0 & o1 & o2 & A & B & C & D).
    exists n0, l0, n1, out0, ws0, o1, o2. auto.
  - exists n, l, n', out, ws, o1, post. auto.
Qed.

Lemma found_first n n' out ws o1 w c b o2 : ntrans n n' out ws -> out = o1 ++ NFound w c b :: o2 ->
  o1 = [] /\ b = has_conn c n.
Proof.
  intros H. tcases H; unfold returned; try (match goal with |- context [match j_phase ?j with _ => _ end] => destruct (j_phase j) end);
    cbn; intros E; try (destruct o1 as [|? [|? [|? ?]]]; discriminate E);
    try (destruct o1 as [|? [|? [|? ?]]]; inversion E; subst; split; [reflexivity|congruence]).
  exfalso. assert (Hi: In (NFound w c b) (map NWorker es)) by (rewrite E; apply in_or_app; right; now left).
  apply in_map_iff in Hi. destruct Hi as (x & X & _). discriminate X.
Qed.

Lemma found_registered n l : nhist n l -> forall pre w c b post, l = pre ++ NFound w c b :: post ->
  (b = true <-> registered c pre).
Proof.
  intros H pre w c b post E. destruct (nhist_put n l H _ _ _ E) as (n0 & l0 & n1 & out & ws & o1 & o2 & A & B & C & ->).
  destruct (found_first _ _ _ _ _ _ _ _ _ B C) as [-> ->]. rewrite app_nil_r. now apply conns_registered.
Qed.
