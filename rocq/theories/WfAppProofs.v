(** Lemmas on the workflow API *)
From Verif Require Import Base Json WfTypes ExecStoreModel ExecStoreSpec ExecStoreProofs WfAppModel WfAppSpec.
Local Open Scope list_scope.

Lemma steps_app cap xs : forall a ys, steps cap a (xs ++ ys) = steps cap (steps cap a xs) ys.
Proof. induction xs as [|x xs IH]; intros a ys; [reflexivity|]. cbn [app steps]. apply IH. Qed.
Lemma lookup_save s id p : get_execution (save s id p) id = Ok (execution_of id p).
Proof.
  unfold save, save_push. assert (G : get_execution (save_insert s id p) id = Ok (execution_of id p)).
  { unfold get_execution, save_insert. cbn [st_executions]. rewrite lookup_insert_eq. reflexivity. }
  destruct (existsb _ _); exact G.
Qed.
Lemma update_nth {A} (f : A -> A) l : forall k j, nth_error (update k f l) j = if Nat.eqb j k then option_map f (nth_error l j) else nth_error l j.
Proof.
  induction l as [|x l IH]; intros k j; destruct k as [|k], j as [|j]; cbn; try reflexivity.
  - destruct (Nat.eqb j k); reflexivity.
  - apply IH.
Qed.
Lemma update_length {A} (f : A -> A) l : forall k, length (update k f l) = length l.
Proof. induction l as [|x l IH]; intros [|k]; cbn; congruence. Qed.

Lemma step_events cap a x : ap_events (fst (step cap a x)) = ap_events a ++ match x with Emits m e => [(m, e)] | _ => [] end.
Proof.
  destruct x as [name uuid input now ok|id| |id|m p|m e|k]; cbn [step]; try (cbn; rewrite app_nil_r; reflexivity).
  - cbv zeta. destruct ok; cbn; rewrite app_nil_r; reflexivity.
  - destruct (nth_error (ap_machines a) m); cbn; rewrite app_nil_r; reflexivity.
  - reflexivity.
Qed.
Lemma steps_events cap xs : forall a, exists new, ap_events (steps cap a xs) = ap_events a ++ new /\ map snd new = broadcast xs.
Proof.
  induction xs as [|x xs IH]; intros a; [exists []; rewrite app_nil_r; auto|]. cbn [steps]. destruct (IH (fst (step cap a x))) as (new & E & M). rewrite step_events in E. rewrite <- app_assoc in E.
  eexists. split; [exact E|]. destruct x; cbn [app broadcast map snd]; [exact M..|rewrite M; reflexivity|exact M].
Qed.
(** What one step does to a stream *)
Lemma step_stream cap a x k s : nth_error (ap_streams a) k = Some s ->
  nth_error (ap_streams (fst (step cap a x))) k = Some (match x with Polls j => if Nat.eqb k j then poll cap (ap_events a) s else s | _ => s end).
Proof.
  intros H. destruct x as [name uuid input now ok|id| |id|m p|m e|j]; cbn [step]; try exact H.
  - cbv zeta. destruct ok; exact H.
  - cbn. rewrite nth_error_app1; [exact H|]. apply nth_error_Some. congruence.
  - destruct (nth_error (ap_machines a) m); exact H.
  - cbn [fst ap_streams]. rewrite update_nth, H. destruct (Nat.eqb k j); reflexivity.
Qed.
(** A stream that began after [n] events *)
Definition reads (n : nat) (events : list (nat * event)) (s : stream) : Prop :=
  n <= sm_next s <= length events /\ sm_sent s = map snd (firstn (sm_next s - n) (skipn n events)).
Lemma reads_more n events new s : reads n events s -> reads n (events ++ new) s.
Proof.
  intros ((L & U) & E). split; [rewrite app_length; lia|]. rewrite E. rewrite skipn_app, firstn_app, skipn_length. replace (sm_next s - n - (length events - n)) with 0 by lia. cbn. rewrite app_nil_r. reflexivity.
Qed.
Lemma firstn_snoc {A} (l : list A) : forall n x, nth_error l n = Some x -> firstn (S n) l = firstn n l ++ [x].
Proof. induction l as [|y l IH]; intros [|n] x H; cbn in *; try discriminate; [congruence|]. f_equal. apply IH, H. Qed.
Lemma nth_skipn {A} (l : list A) : forall n i, nth_error (skipn n l) i = nth_error l (n + i).
Proof. induction l as [|y l IH]; intros [|n] i; cbn; try reflexivity; [destruct i; reflexivity|apply IH]. Qed.
Lemma reads_poll cap n events s : reads n events s -> reads n events (poll cap events s).
Proof.
  intros R. unfold poll. destruct (sm_broken s); [exact R|]. destruct (Nat.ltb _ _); [exact R|]. destruct (nth_error events (sm_next s)) as [[m e]|] eqn:N; [|exact R].
  destruct R as ((L & U) & E). split; cbn [sm_next sm_sent].
  - assert (sm_next s < length events) by (apply nth_error_Some; congruence). lia.
  - replace (S (sm_next s) - n) with (S (sm_next s - n)) by lia. rewrite (firstn_snoc _ _ (m, e)); [rewrite map_app, <- E; reflexivity|]. rewrite nth_skipn. replace (n + (sm_next s - n)) with (sm_next s) by lia. exact N.
Qed.
Lemma steps_reads cap n xs : forall a k s, nth_error (ap_streams a) k = Some s -> reads n (ap_events a) s -> exists s', nth_error (ap_streams (steps cap a xs)) k = Some s' /\ reads n (ap_events (steps cap a xs)) s'.
Proof.
  induction xs as [|x xs IH]; intros a k s H R; [eauto|]. cbn [steps]. eapply IH; [apply step_stream; exact H|]. rewrite step_events. apply reads_more. destruct x; try exact R. destruct (Nat.eqb k k0); [apply reads_poll|]; exact R.
Qed.
Lemma opened cap a id : nth_error (ap_streams (fst (step cap a (GetStream id)))) (length (ap_streams a)) = Some (mk_stream (length (ap_events a)) [] false).
Proof. cbn. rewrite nth_error_app2 by lia. rewrite Nat.sub_diag. reflexivity. Qed.
Lemma opened_reads a : reads (length (ap_events a)) (ap_events a) (mk_stream (length (ap_events a)) [] false).
Proof. split; cbn; [lia|]. rewrite Nat.sub_diag. reflexivity. Qed.
(** A broken stream stays as it is *)
Lemma steps_broken cap xs : forall a k s, nth_error (ap_streams a) k = Some s -> sm_broken s = true -> nth_error (ap_streams (steps cap a xs)) k = Some s.
Proof.
  induction xs as [|x xs IH]; intros a k s H B; [exact H|]. cbn [steps]. apply IH; [|exact B]. rewrite (step_stream _ _ _ _ _ H). destruct x; try reflexivity. destruct (Nat.eqb k k0); [|reflexivity]. unfold poll. rewrite B. reflexivity.
Qed.
Lemma poll_broken cap events s : sm_broken s = false -> (sm_broken (poll cap events s) = true <-> cap < length events - sm_next s).
Proof.
  intros B. unfold poll. rewrite B. destruct (Nat.ltb_spec (sm_next s + cap) (length events)) as [L|L]; cbn; [split; [lia|reflexivity]|]. destruct (nth_error events (sm_next s)) as [[m e]|]; cbn; [|rewrite B]; split; try discriminate; lia.
Qed.
