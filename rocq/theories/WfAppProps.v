(** Theorems on the workflow API: C99-C103 *)
From Verif Require Import Base Json WfTypes ExecStoreModel ExecStoreSpec ExecStoreProofs WfAppModel WfAppSpec WfAppProofs.
From Verif Require StateMachineModel.
Local Open Scope list_scope.

(** C99: a request to run is answered with its id, under which a new execution is stored, and one
    machine is started with it. *)
Theorem C99_run cap a name uuid input now : exists id e, run_id name uuid id /\ snd (step cap a (PostRun name uuid input now true)) = Some (Started id)
  /\ fresh_execution id input now e /\ holds (fst (step cap a (PostRun name uuid input now true))) id e
  /\ ap_machines (fst (step cap a (PostRun name uuid input now true))) = ap_machines a ++ [e].
Proof.
  exists (match name with Some n => n | None => uuid end), (execution_of (match name with Some n => n | None => uuid end) (first_payload input now)). split; [destruct name; [left|right]; auto|].
  split; [reflexivity|]. split; [repeat split|]. split; [apply lookup_save|reflexivity].
Qed.
(** C99: if it cannot be stored the answer says so, and nothing is started. *)
Theorem C99_failed cap a name uuid input now : step cap a (PostRun name uuid input now false) = (a, Some Unexpected).
Proof. reflexivity. Qed.
(** C99: machines are only started by such requests, one each. *)
Fixpoint accepted (xs : list act) : nat := match xs with [] => 0 | PostRun _ _ _ _ true :: xs => S (accepted xs) | _ :: xs => accepted xs end.
Theorem C99_one_each cap xs : forall a, length (ap_machines (steps cap a xs)) = length (ap_machines a) + accepted xs.
Proof.
  induction xs as [|x xs IH]; intros a; [cbn; lia|]. cbn [steps]. rewrite IH. destruct x as [name uuid input now ok|id| |id|m p|m e|k]; cbn [step accepted]; try reflexivity.
  - cbv zeta. destruct ok; cbn; [rewrite app_length; cbn; lia|reflexivity].
  - destruct (nth_error (ap_machines a) m); reflexivity.
Qed.

(** C100: under an id that is used once, what is stored is what its own machine saved last,
    whatever other executions do. *)
Lemma machines_kept cap x a m e : nth_error (ap_machines a) m = Some e -> nth_error (ap_machines (fst (step cap a x))) m = Some e.
Proof.
  intros H. destruct x as [name uuid input now ok|id| |id|j p|j f|k]; cbn [step]; try exact H.
  - cbv zeta. destruct ok; [|exact H]. cbn. rewrite nth_error_app1; [exact H|]. apply nth_error_Some. congruence.
  - destruct (nth_error (ap_machines a) j); exact H.
Qed.
Lemma last_cons m x xs q first p : (match x with Saves j q' => if Nat.eqb j m then q = q' else q = first | _ => q = first end) -> last_save m xs q p -> last_save m (x :: xs) first p.
Proof.
  intros Q [(xs1 & xs2 & -> & N)|(-> & N)]; [left; exists (x :: xs1), xs2; auto|].
  assert (D : (exists q', x = Saves m q' /\ q = q') \/ (q = first /\ forall p', x <> Saves m p')).
  { destruct x as [? ? ? ? ?|?| |?|j q'|? ?|?]; try (right; split; [exact Q|discriminate]). destruct (Nat.eqb_spec j m) as [->|D]; [left; eauto|]. right. split; [exact Q|]. intros p' [= E _]. exact (D E). }
  destruct D as [(q' & -> & ->)|(-> & D)]; [left; exists [], xs; auto|]. right. split; [reflexivity|]. intros p' [E|I]; [exact (D _ E)|exact (N _ I)].
Qed.
Lemma own cap id m xs : forall a q, (exists e, nth_error (ap_machines a) m = Some e /\ we_id e = id) -> (forall j e, nth_error (ap_machines a) j = Some e -> we_id e = id -> j = m) ->
  (forall name uuid input now ok, In (PostRun name uuid input now ok) xs -> ~ run_id name uuid id) -> holds a id (stored id q) -> exists p, last_save m xs q p /\ holds (steps cap a xs) id (stored id p).
Proof.
  induction xs as [|x xs IH]; intros a q (e & ME & MI) U P H.
  { exists q. split; [right; split; [reflexivity|intros p' []]|exact H]. }
  assert (P' : forall name uuid input now ok, In (PostRun name uuid input now ok) xs -> ~ run_id name uuid id) by (intros ? ? ? ? ? I; eapply P; right; exact I).
  assert (M' : exists e, nth_error (ap_machines (fst (step cap a x))) m = Some e /\ we_id e = id) by (exists e; split; [apply machines_kept; exact ME|exact MI]).
  assert (G : forall q', (match x with Saves j q0 => if Nat.eqb j m then q' = q0 else q' = q | _ => q' = q end) -> (forall j e, nth_error (ap_machines (fst (step cap a x))) j = Some e -> we_id e = id -> j = m) ->
    holds (fst (step cap a x)) id (stored id q') -> exists p, last_save m (x :: xs) q p /\ holds (steps cap a (x :: xs)) id (stored id p)).
  { intros q' Q U' H'. destruct (IH _ q' M' U' P' H') as (p & L & R). exists p. split; [eapply last_cons; eassumption|exact R]. }
  destruct x as [name uuid input now ok|i| |i|j p|j f|k]; try (apply (G q); [reflexivity|exact U|exact H]).
  - destruct ok; [|apply (G q); [reflexivity|exact U|exact H]]. assert (NI : match name with Some n => n | None => uuid end <> id).
    { intros X. apply (P name uuid input now true (or_introl eq_refl)). unfold run_id. destruct name; [left|right]; subst; auto. }
    apply (G q); [reflexivity| |].
    + intros j e'. cbn. intros N I. destruct (Nat.lt_ge_cases j (length (ap_machines a))) as [L|L]; [rewrite nth_error_app1 in N by exact L; exact (U _ _ N I)|].
      rewrite nth_error_app2 in N by exact L. destruct (j - length (ap_machines a)) as [|d]; [|destruct d; discriminate]. injection N as <-. cbn in I. contradiction.
    + unfold holds. cbn [step fst ap_store]. rewrite get_other; [exact H|exact NI].
  - destruct (nth_error (ap_machines a) j) as [e'|] eqn:J.
    + assert (ST : step cap a (Saves j p) = (mk_app (save (ap_store a) (we_id e') p) (ap_machines a) (ap_events a) (ap_streams a), None)) by (cbn [step]; rewrite J; reflexivity).
      destruct (Nat.eqb_spec j m) as [->|D].
      * apply (G p); rewrite ?ST; [reflexivity|exact U|]. assert (e' = e) as -> by congruence. unfold holds. cbn [fst ap_store]. rewrite MI. rewrite lookup_save. reflexivity.
      * apply (G q); rewrite ?ST; [reflexivity|exact U|]. unfold holds. cbn [fst ap_store]. rewrite get_other; [exact H|]. intros X. apply D, (U j e' J X).
    + assert (ST : step cap a (Saves j p) = (a, None)) by (cbn [step]; rewrite J; reflexivity). destruct (Nat.eqb_spec j m) as [->|D]; [congruence|]. apply (G q); rewrite ?ST; [reflexivity|exact U|exact H].
Qed.
Theorem C100_own cap a name uuid input now id xs : run_id name uuid id -> (forall e, In e (ap_machines a) -> we_id e <> id) ->
  (forall name' uuid' input' now' ok', In (PostRun name' uuid' input' now' ok') xs -> ~ run_id name' uuid' id) ->
  exists p, last_save (length (ap_machines a)) xs (first_payload input now) p /\ holds (steps cap a (PostRun name uuid input now true :: xs)) id (stored id p).
Proof.
  intros R U P. assert (E : match name with Some n => n | None => uuid end = id) by (destruct R as [->|(-> & ->)]; reflexivity).
  cbn [steps]. apply own; [| |exact P|].
  - eexists. cbn. rewrite E, nth_error_app2, Nat.sub_diag by lia. split; reflexivity.
  - intros j e. cbn. rewrite E. intros N I. destruct (Nat.lt_ge_cases j (length (ap_machines a))) as [L|L]; [rewrite nth_error_app1 in N by exact L; exfalso; eapply U; [eapply nth_error_In; exact N|exact I]|].
    rewrite nth_error_app2 in N by exact L. destruct (j - length (ap_machines a)) as [|d] eqn:D; [lia|destruct d; discriminate].
  - unfold holds. cbn [step fst ap_store]. rewrite E, lookup_save. reflexivity.
Qed.
(** C100, refuted: a name that is used again is accepted; the earlier execution is lost. *)
Theorem C100_reuse_refuted cap a id e uuid input now : holds a id e -> we_status e <> Preparing ->
  snd (step cap a (PostRun (Some id) uuid input now true)) = Some (Started id) /\ ~ holds (fst (step cap a (PostRun (Some id) uuid input now true))) id e.
Proof. intros _ S. split; [reflexivity|]. unfold holds. cbn [step fst ap_store]. rewrite lookup_save. intros [= <-]. apply S. reflexivity. Qed.
(** C100, refuted: and if its machine still runs, both write to the one record. *)
Theorem C100_shared_refuted cap a m e uuid input now p : nth_error (ap_machines a) m = Some e ->
  holds (steps cap a [PostRun (Some (we_id e)) uuid input now true; Saves m p]) (we_id e) (stored (we_id e) p).
Proof.
  intros M. cbn [steps]. pose proof (machines_kept cap (PostRun (Some (we_id e)) uuid input now true) a m e M) as K. unfold holds. cbn [step]. cbn [step] in K. rewrite K. cbn [fst ap_store]. rewrite lookup_save. reflexivity.
Qed.

(** C101, refuted: no stored execution can be read through the API. *)
Theorem C101_refuted cap a id e : holds a id e -> snd (step cap a (GetExecution id)) = Some Null /\ snd (step cap a GetExecutions) = Some Null.
Proof. split; reflexivity. Qed.

(** C102: a stream carries, in order and without gaps, what is broadcast after it was opened. *)
Theorem C102_in_order cap a id xs : exists s n, nth_error (ap_streams (steps cap a (GetStream id :: xs))) (length (ap_streams a)) = Some s /\ sm_sent s = firstn n (broadcast xs).
Proof.
  cbn [steps]. destruct (steps_reads cap (length (ap_events a)) xs _ _ _ (opened cap a id) (opened_reads a)) as (s & N & (_ & E)). exists s, (sm_next s - length (ap_events a)). split; [exact N|].
  destruct (steps_events cap xs (fst (step cap a (GetStream id)))) as (new & EV & M). rewrite EV in E. cbn [step fst ap_events] in E. rewrite skipn_app, skipn_all, Nat.sub_diag in E. cbn [app skipn] in E. rewrite E, <- M, firstn_map. reflexivity.
Qed.
(** C102: a stream that is read to the end carries all of it. *)
Theorem C102_complete cap a id xs s : nth_error (ap_streams (steps cap a (GetStream id :: xs))) (length (ap_streams a)) = Some s -> behind (steps cap a (GetStream id :: xs)) s = 0 -> sm_sent s = broadcast xs.
Proof.
  cbn [steps]. destruct (steps_reads cap (length (ap_events a)) xs _ _ _ (opened cap a id) (opened_reads a)) as (s' & N & (L & E)). rewrite N. intros [= <-] B. unfold behind in B.
  destruct (steps_events cap xs (fst (step cap a (GetStream id)))) as (new & EV & M). rewrite EV in E, B, L. cbn [step fst ap_events] in E, B, L. rewrite skipn_app, skipn_all, Nat.sub_diag in E. cbn [app skipn] in E. rewrite E, <- M. rewrite app_length in B, L. rewrite firstn_all2 by lia. reflexivity.
Qed.
(** C102: a poll brings the next event, unless the stream is further behind than the channel keeps. *)
Theorem C102_next cap a k s : nth_error (ap_streams a) k = Some s -> sm_broken s = false -> 0 < behind a s <= cap ->
  exists m e s', nth_error (ap_events a) (sm_next s) = Some (m, e) /\ nth_error (ap_streams (fst (step cap a (Polls k)))) k = Some s' /\ sm_sent s' = sm_sent s ++ [e] /\ sm_broken s' = false /\ behind (fst (step cap a (Polls k))) s' + 1 = behind a s.
Proof.
  intros H B L. unfold behind in *. destruct (nth_error (ap_events a) (sm_next s)) as [[m e]|] eqn:N; [|apply nth_error_None in N; lia]. exists m, e, (mk_stream (S (sm_next s)) (sm_sent s ++ [e]) false). split; [reflexivity|].
  rewrite (step_stream _ _ _ _ _ H), Nat.eqb_refl. unfold poll. rewrite B. destruct (Nat.ltb_spec (sm_next s + cap) (length (ap_events a))) as [X|X]; [lia|]. rewrite N. repeat split. cbn [step fst ap_events sm_next]. lia.
Qed.
(** C102, refuted: a stream that is further behind breaks off, and gets nothing any more. *)
Theorem C102_lag_refuted cap a k s xs : nth_error (ap_streams a) k = Some s -> sm_broken s = false -> cap < behind a s ->
  exists s', nth_error (ap_streams (steps cap a (Polls k :: xs))) k = Some s' /\ sm_broken s' = true /\ sm_sent s' = sm_sent s.
Proof.
  intros H B L. exists (mk_stream (sm_next s) (sm_sent s) true). cbn [steps]. split; [|split; reflexivity]. apply steps_broken; [|reflexivity]. rewrite (step_stream _ _ _ _ _ H), Nat.eqb_refl. unfold poll, behind in *. rewrite B. destruct (Nat.ltb_spec (sm_next s + cap) (length (ap_events a))); [reflexivity|lia].
Qed.
(** C102, refuted: the stream of one execution carries the events of all. *)
Theorem C102_others_refuted cap a id id' xs : nth_error (ap_streams (steps cap a (GetStream id :: xs))) (length (ap_streams a)) = nth_error (ap_streams (steps cap a (GetStream id' :: xs))) (length (ap_streams a)).
Proof. reflexivity. Qed.
(** C102, refuted: nor can a client tell them apart: which machine sends an event changes nothing. *)
Lemma poll_source cap ev ev' s : map snd ev = map snd ev' -> poll cap ev s = poll cap ev' s.
Proof.
  intros E. unfold poll. assert (length ev = length ev') as -> by (rewrite <- (map_length snd ev), E; apply map_length). destruct (sm_broken s); [reflexivity|]. destruct (Nat.ltb _ _); [reflexivity|].
  pose proof (f_equal (fun l => nth_error l (sm_next s)) E) as N. cbn beta in N. rewrite !nth_error_map in N. destruct (nth_error ev (sm_next s)) as [[m e]|], (nth_error ev' (sm_next s)) as [[m' e']|]; cbn in N; congruence.
Qed.
Lemma update_ext {A} (f g : A -> A) l : (forall x, f x = g x) -> forall k, update k f l = update k g l.
Proof. intros E. induction l as [|x l IH]; intros [|k]; cbn; [reflexivity..|rewrite E; reflexivity|rewrite IH; reflexivity]. Qed.
Lemma steps_source cap xs ys : Forall2 same_but_source xs ys -> forall a b, ap_store a = ap_store b -> ap_machines a = ap_machines b -> map snd (ap_events a) = map snd (ap_events b) -> ap_streams a = ap_streams b -> ap_streams (steps cap a xs) = ap_streams (steps cap b ys).
Proof.
  induction 1 as [|x y xs ys S F IH]; intros a b S1 S2 S3 S4; [exact S4|]. cbn [steps]. destruct S as [x|m m' e].
  - assert (L : length (ap_events a) = length (ap_events b)) by (rewrite <- (map_length snd (ap_events a)), S3; apply map_length).
    destruct x as [name uuid input now ok|i| |i|j p|j f|k]; cbn [step]; try (apply IH; assumption).
    + cbv zeta. destruct ok; [|apply IH; assumption]. apply IH; cbn; congruence.
    + apply IH; cbn; congruence.
    + rewrite S2. destruct (nth_error (ap_machines b) j); apply IH; cbn; congruence.
    + apply IH; cbn; [assumption..| |assumption]. rewrite !map_app, S3. reflexivity.
    + apply IH; cbn; [assumption..|]. rewrite S4. apply update_ext. intros s. apply poll_source, S3.
  - apply IH; cbn; [assumption..| |assumption]. rewrite !map_app, S3. reflexivity.
Qed.
Theorem C102_anonymous_refuted cap xs ys : Forall2 same_but_source xs ys -> ap_streams (steps cap app_new xs) = ap_streams (steps cap app_new ys).
Proof. intros F. apply steps_source; auto. Qed.
(** C102, refuted: what was broadcast before the stream was opened is not carried, so an execution
    that ends first is never seen to end. *)
Theorem C102_early_refuted cap a id xs : broadcast xs = [] -> exists s, nth_error (ap_streams (steps cap a (GetStream id :: xs))) (length (ap_streams a)) = Some s /\ sm_sent s = [].
Proof. intros B. destruct (C102_in_order cap a id xs) as (s & n & N & E). exists s. split; [exact N|]. rewrite E, B. destruct n; reflexivity. Qed.

(** C103: a blueprint without a workflow is refused, and only such a one. *)
Theorem C103_missing rs : collect rs = None <-> forall n r, In (n, r) rs -> wr_type r <> RWorkflow.
Proof.
  unfold collect. destruct (find _ rs) as [[n r]|] eqn:F.
  - split; [discriminate|]. intros H. apply find_some in F. destruct F as (I & T). exfalso. apply (H n r I). cbn in T. destruct (wr_type r); [reflexivity|discriminate].
  - split; [|reflexivity]. intros _ n r I T. apply (find_none _ _ F) in I. cbn in I. rewrite T in I. discriminate.
Qed.
(** C103, refuted: what is set up has no state and no handler, whatever the workflow says. *)
Theorem C103_workflow_refuted rs c : collect rs = Some c -> ws_states (wc_workflow c) = [] /\ ws_start_at (wc_workflow c) = ""%string /\ wc_handlers c = None.
Proof. unfold collect. destruct (find _ rs); [|discriminate]. intros [= <-]. repeat split. Qed.

(** Cases that meet the hypotheses *)
Definition ex_done : save_payload := {| sp_input := JNull; sp_started := 7; sp_completed := Some 9%Z; sp_status := Succeeded; sp_status_detail := "done"; sp_current_state := None; sp_states := [] |}.
Definition ex_other : save_payload := {| sp_input := JNull; sp_started := 7; sp_completed := Some 8%Z; sp_status := Failed; sp_status_detail := "no"; sp_current_state := None; sp_states := [] |}.
Definition ex_acts := [PostRun (Some "a"%string) "u1" JNull 5 true; PostRun None "u2" JNull 6 true; Saves 1 ex_other; Saves 0 ex_done].
Definition ex_a := steps 128 app_new ex_acts.
Example C99_nonvacuous : snd (step 128 app_new (PostRun None "u" JNull 5 true)) = Some (Started "u") /\ length (ap_machines ex_a) = 2 /\ accepted ex_acts = 2.
Proof. repeat split. Qed.
Example C100_nonvacuous : holds ex_a "a" (stored "a" ex_done) /\ holds ex_a "u2" (stored "u2" ex_other) /\ we_status (stored "a" ex_done) <> Preparing
  /\ (forall e, In e (ap_machines ex_a) -> we_id e <> "b"%string) /\ run_id (Some "b"%string) "u3" "b" /\ last_save 2 [Saves 2 ex_other; Saves 2 ex_done; Saves 0 ex_other] (first_payload JNull 1) ex_done.
Proof.
  split; [reflexivity|]. split; [reflexivity|]. split; [discriminate|]. split; [intros e [<-|[<-|[]]]; discriminate|]. split; [left; reflexivity|].
  left. exists [Saves 2 ex_other], [Saves 0 ex_other]. split; [reflexivity|]. intros p' [E|[]]. discriminate.
Qed.
Example C101_nonvacuous : holds ex_a "a" (stored "a" ex_done) /\ snd (step 128 ex_a (GetExecution "a")) = Some Null.
Proof. split; reflexivity. Qed.
Definition ex_ev (n : nat) : event := StateMachineModel.EvComplete (execution_of "a" (first_payload JNull (Z.of_nat n))).
Definition ex_str := [Emits 0 (ex_ev 0); GetStream "a"; Emits 0 (ex_ev 1); Polls 0; Emits 1 (ex_ev 2); Polls 0; Polls 0].
Example C102_nonvacuous : map sm_sent (ap_streams (steps 128 app_new ex_str)) = [[ex_ev 1; ex_ev 2]]
  /\ map (fun s => (sm_sent s, sm_broken s)) (ap_streams (steps 128 app_new (GetStream "a" :: map (fun n => Emits 0 (ex_ev n)) (seq 0 129) ++ [Polls 0; Polls 0]))) = [([], true)]
  /\ map sm_broken (ap_streams (steps 128 app_new (GetStream "a" :: map (fun n => Emits 0 (ex_ev n)) (seq 0 128) ++ [Polls 0; Polls 0]))) = [false].
Proof. vm_compute. auto. Qed.
Definition ex_wf : workflow_spec unit := {| ws_start_at := "one"; ws_states := [("one"%string, mk_state_config Success None None None None None None None None None None)] |}.
Example C103_nonvacuous : (exists c, collect [("h"%string, mk_wf_resource ROther empty_workflow); ("w"%string, mk_wf_resource RWorkflow ex_wf)] = Some c /\ wc_workflow c <> ex_wf) /\ collect [("h"%string, mk_wf_resource ROther empty_workflow)] = None.
Proof. split; [eexists; split; [reflexivity|discriminate]|reflexivity]. Qed.
Print Assumptions C99_run.
Print Assumptions C99_failed.
Print Assumptions C99_one_each.
Print Assumptions C100_own.
Print Assumptions C100_reuse_refuted.
Print Assumptions C100_shared_refuted.
Print Assumptions C101_refuted.
Print Assumptions C102_in_order.
Print Assumptions C102_complete.
Print Assumptions C102_next.
Print Assumptions C102_lag_refuted.
Print Assumptions C102_others_refuted.
Print Assumptions C102_anonymous_refuted.
Print Assumptions C102_early_refuted.
Print Assumptions C103_missing.
Print Assumptions C103_workflow_refuted.
