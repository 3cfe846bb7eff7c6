(** Lemmas on a whole workflow application *)
From Verif Require Import Base Json WfTypes StateMachineModel StateMachineSpec ExecStoreModel ExecStoreSpec ExecStoreProofs WfAppModel WfAppSpec WfAppProofs WfSysModel WfSysSpec.
Local Open Scope list_scope.

Definition saved_by (f : effect) : option save_payload := match f with FSave p true => Some p | _ => None end.

Lemma acts_machines cap m fs : forall a, ap_machines (steps cap a (acts_of m fs)) = ap_machines a.
Proof.
  induction fs as [|f fs IH]; intros a; [reflexivity|]. destruct f as [p [] |e| | | ]; cbn [acts_of flat_map]; fold (acts_of m fs); cbn [app steps]; rewrite ?IH; try reflexivity.
  cbn [step]. destruct (nth_error (ap_machines a) m); reflexivity.
Qed.
Lemma acts_streams cap m fs : forall a, ap_streams (steps cap a (acts_of m fs)) = ap_streams a.
Proof.
  induction fs as [|f fs IH]; intros a; [reflexivity|]. destruct f as [p [] |e| | | ]; cbn [acts_of flat_map]; fold (acts_of m fs); cbn [app steps]; rewrite ?IH; try reflexivity.
  cbn [step]. destruct (nth_error (ap_machines a) m); reflexivity.
Qed.
Lemma acts_events cap m fs : forall a, ap_events (steps cap a (acts_of m fs)) = ap_events a ++ map (pair m) (events_in fs).
Proof.
  induction fs as [|f fs IH]; intros a; [cbn; rewrite app_nil_r; reflexivity|]. destruct f as [p [] |e| | | ]; cbn [acts_of flat_map events_in]; fold (acts_of m fs) (events_in fs); cbn [app steps]; rewrite ?IH; try reflexivity.
  - cbn [step]. destruct (nth_error (ap_machines a) m); reflexivity.
  - cbn [step fst ap_events map]. rewrite <- app_assoc. reflexivity.
Qed.
Lemma acts_store cap m e fs : forall a id, nth_error (ap_machines a) m = Some e ->
  get_execution (ap_store (steps cap a (acts_of m fs))) id =
  if String.eqb id (we_id e) then match last_value saved_by None fs with Some p => Ok (execution_of id p) | None => get_execution (ap_store a) id end else get_execution (ap_store a) id.
Proof.
  induction fs as [|f fs IH] using rev_ind; intros a id N; [cbn; destruct (String.eqb _ _); reflexivity|].
  unfold acts_of. rewrite flat_map_app. fold (acts_of m fs). rewrite steps_app, last_value_app. cbn [last_value flat_map]. rewrite app_nil_r.
  pose proof (acts_machines cap m fs a) as M.
  destruct f as [p [] |ev| | | ]; cbn [saved_by steps]; try apply (IH a id N).
  cbn [step]. rewrite M, N. cbn [fst ap_store]. destruct (String.eqb_spec id (we_id e)) as [->|D]; [apply lookup_save|].
  rewrite get_other by (intro X; apply D; congruence). rewrite IH by exact N. apply String.eqb_neq in D. rewrite D. reflexivity.
Qed.
Lemma set_nth_nth {A} (x : A) l : forall n j, nth_error (set_nth n x l) j = if Nat.eqb j n then match nth_error l j with Some _ => Some x | None => None end else nth_error l j.
Proof. induction l as [|y l IH]; intros [|n] [|j]; cbn; try reflexivity; try (destruct (Nat.eqb _ _); reflexivity). apply IH. Qed.
Lemma nth_error_app1_some {A} (l l' : list A) n x : nth_error l n = Some x -> nth_error (l ++ l') n = Some x.
Proof. intros H. rewrite nth_error_app1; [exact H|]. apply nth_error_Some. congruence. Qed.
Lemma set_nth_len {A} (x : A) l : forall n, length (set_nth n x l) = length l.
Proof. induction l as [|y l IH]; intros [|n]; cbn; auto. Qed.
Lemma events_app fs gs : events_in (fs ++ gs) = events_in fs ++ events_in gs.
Proof. unfold events_in. apply flat_map_app. Qed.
Lemma sent_app m a b : sent_by m (a ++ b) = sent_by m a ++ sent_by m b.
Proof. unfold sent_by. rewrite filter_app, map_app. reflexivity. Qed.
Lemma sent_pair m j es : sent_by m (map (pair j) es) = if Nat.eqb j m then es else [].
Proof.
  unfold sent_by. induction es as [|e es IH]; [destruct (Nat.eqb _ _); reflexivity|]. cbn [map filter fst]. destruct (Nat.eqb j m); cbn [map snd]; rewrite IH; reflexivity.
Qed.

Section P.
Variable cap : nat.
Context {T : Type}.
Variable render : T -> json -> json + render_error.
Variable extract : json -> string -> json + string.
Variable inject : json -> string -> json -> json + string.
Variable has_handler : string -> bool.
Variable wait_time : wait_config -> json -> Z -> N + (bool * option string * string).
Variable spec : workflow_spec T.
Notation SM_STEP := (sm_step T render extract inject has_handler wait_time spec).
Notation RUN := (sm_run T render extract inject has_handler wait_time spec).
Notation YSTEP := (ystep cap T render extract inject has_handler wait_time spec).
Notation YRUN := (yrun cap T render extract inject has_handler wait_time spec).
Notation NEW := (sys_new T).

Lemma sm_log c a c' : SM_STEP c a = Some c' -> exists fs, c_log T c' = c_log T c ++ map (pair (a_thread a)) fs.
Proof.
  unfold sm_step. destruct (nth_error _ _) as [th|]; [|discriminate]. destruct (step_pc _ _ _ _ _ _ _ _ _ _ _ _) as [o|]; [|discriminate]. intros [= <-]. eexists. reflexivity.
Qed.
Lemma sm_run_app c xs : forall ys, RUN c (xs ++ ys) = match RUN c xs with Some c' => RUN c' ys | None => None end.
Proof. revert c. induction xs as [|x xs IH]; intros c ys; [reflexivity|]. cbn [app sm_run]. destruct (SM_STEP c x); [apply IH|reflexivity]. Qed.
Lemma yrun_app s xs : forall ys, YRUN s (xs ++ ys) = match YRUN s xs with Some s' => YRUN s' ys | None => None end.
Proof. revert s. induction xs as [|x xs IH]; intros s ys; [reflexivity|]. cbn [app yrun]. destruct (YSTEP s x); [apply IH|reflexivity]. Qed.

(** A step of the application, by kind *)
Inductive yview (s : sys T) : sact -> sys T -> Prop :=
| v_run name uuid input now id s' : run_id name uuid id ->
    s' = mk_sys T (mk_app (save (ap_store (y_app T s)) id (first_payload input now)) (ap_machines (y_app T s) ++ [execution_of id (first_payload input now)]) (ap_events (y_app T s)) (ap_streams (y_app T s)))
          (y_gone T s) (y_machines T s ++ [sm_init T spec (execution_of id (first_payload input now))]) ->
    yview s (ARequest (RRun name uuid input now true)) s'
| v_other r s' : (forall name uuid input now, r <> RRun name uuid input now true) ->
    ap_store (y_app T s') = ap_store (y_app T s) -> ap_machines (y_app T s') = ap_machines (y_app T s) -> ap_events (y_app T s') = ap_events (y_app T s) ->
    y_gone T s' = y_gone T s -> y_machines T s' = y_machines T s -> ap_streams (y_app T s') = ap_streams (fst (step cap (y_app T s) (act_of r))) -> yview s (ARequest r) s'
| v_machine m a c c' fs s' : y_gone T s <= m -> nth_error (y_machines T s) m = Some c -> SM_STEP c a = Some c' -> c_log T c' = c_log T c ++ map (pair (a_thread a)) fs ->
    s' = mk_sys T (steps cap (y_app T s) (acts_of m fs)) (y_gone T s) (set_nth m c' (y_machines T s)) -> yview s (AMachine m a) s'
| v_stop (k : bool) s' : s' = mk_sys T (mk_app (if k then ap_store (y_app T s) else store_new) (ap_machines (y_app T s)) (ap_events (y_app T s)) (map cut (ap_streams (y_app T s))))
              (length (y_machines T s)) (y_machines T s) -> yview s (AStop k) s'.
Lemma step_view s x s' : YSTEP s x = Some s' -> yview s x s'.
Proof.
  destruct x as [r|m a|k]; cbn [ystep].
  - intros [= <-]. destruct r as [name uuid input now [] |id| |id|k]; try (eapply v_other; [congruence|reflexivity..]).
    cbn [act_of step]. cbv zeta. cbn [fst]. eapply v_run; [|reflexivity]. destruct name; [left|right]; auto.
  - destruct (Nat.ltb_spec m (y_gone T s)) as [|G]; [discriminate|]. destruct (nth_error _ m) as [c|] eqn:N; [|discriminate]. destruct (SM_STEP c a) as [c'|] eqn:S; [|discriminate].
    destruct (sm_log _ _ _ S) as (fs & L). intros [= <-]. eapply v_machine; eauto. rewrite L, skipn_app, skipn_all, Nat.sub_diag. cbn [app skipn]. rewrite map_map. cbn [snd]. rewrite map_id. reflexivity.
  - intros [= <-]. apply v_stop. reflexivity.
Qed.

(** What holds of every machine *)
Definition mach (xs : list sact) (s : sys T) : Prop :=
  length (y_machines T s) = length (ap_machines (y_app T s)) /\ y_gone T s <= length (y_machines T s)
  /\ (forall m, length (y_machines T s) <= m -> own m xs = [] /\ sent_by m (ap_events (y_app T s)) = [])
  /\ forall m c, nth_error (y_machines T s) m = Some c -> exists e, nth_error (ap_machines (y_app T s)) m = Some e
      /\ RUN (sm_init T spec e) (own m xs) = Some c
      /\ sent_by m (ap_events (y_app T s)) = events_in (effects (c_log T c))
      /\ exists input now, e = execution_of (we_id e) (first_payload input now).
Lemma own_snoc m xs x : own m (xs ++ [x]) = own m xs ++ match x with AMachine j a => if Nat.eqb j m then [a] else [] | _ => [] end.
Proof. unfold own. rewrite flat_map_app. cbn. rewrite app_nil_r. reflexivity. Qed.
Lemma mach_inv xs : forall s, YRUN NEW xs = Some s -> mach xs s.
Proof.
  induction xs as [|x xs IH] using rev_ind; intros s R.
  { injection R as <-. split; [reflexivity|]. split; [cbn; lia|]. split; [intros; split; reflexivity|]. intros [|m] c; discriminate. }
  rewrite yrun_app in R. destruct (YRUN NEW xs) as [s0|] eqn:R0; [|discriminate]. cbn [yrun] in R. destruct (YSTEP s0 x) as [s1|] eqn:S; [|discriminate]. injection R as <-.
  destruct (IH _ eq_refl) as (L & G & O & A). apply step_view in S. destruct S as [name uuid input now id s' I -> |r s' N H1 H2 H3 H4 H5 H6|m a c c' fs s' G' N S' Lg -> |k s' ->].
  - unfold mach. cbn [y_app y_gone y_machines ap_machines ap_events ap_store ap_streams]. rewrite !app_length. cbn [length]. split; [lia|]. split; [lia|]. split.
    + intros m Hm. rewrite own_snoc, app_nil_r. apply O. lia.
    + intros m c Hc. rewrite own_snoc, app_nil_r. destruct (Nat.lt_ge_cases m (length (y_machines T s0))) as [Lt|Ge].
      * rewrite nth_error_app1 in Hc by exact Lt. destruct (A _ _ Hc) as (e & E & X). exists e. split; [rewrite nth_error_app1; [exact E|lia]|exact X].
      * rewrite nth_error_app2 in Hc by exact Ge. destruct (m - length (y_machines T s0)) as [|d] eqn:D; [|destruct d; discriminate]. injection Hc as <-.
        destruct (O m ltac:(lia)) as (O1 & O2). eexists. split; [rewrite nth_error_app2 by lia; replace (m - length (ap_machines (y_app T s0))) with 0 by lia; reflexivity|]. rewrite O1, O2. split; [reflexivity|]. split; [reflexivity|]. exists input, now. reflexivity.
  - unfold mach. rewrite H2, H3, H4, H5. split; [exact L|]. split; [exact G|]. split; intros m; rewrite own_snoc, app_nil_r; [apply O|apply A].
  - unfold mach. cbn [y_app y_gone y_machines]. rewrite acts_machines, acts_events, set_nth_len. split; [exact L|]. split; [exact G|].
    assert (Lt : m < length (y_machines T s0)) by (apply nth_error_Some; congruence). split.
    + intros j Hj. rewrite own_snoc, sent_app, sent_pair. destruct (Nat.eqb_spec m j) as [->|D]; [lia|]. rewrite !app_nil_r. apply O. exact Hj.
    + intros j cj Hj. rewrite own_snoc, sent_app, sent_pair. rewrite set_nth_nth in Hj. rewrite (Nat.eqb_sym j m) in Hj. destruct (Nat.eqb_spec m j) as [->|D].
      * rewrite N in Hj. injection Hj as <-. destruct (A _ _ N) as (e & E & Rn & Ev & X). exists e. split; [exact E|]. split; [rewrite sm_run_app, Rn; cbn [sm_run]; rewrite S'; reflexivity|]. split; [|exact X].
        rewrite Ev, Lg. unfold effects. rewrite map_app, events_app, map_map. cbn [snd]. rewrite map_id. reflexivity.
      * rewrite !app_nil_r. apply A. exact Hj.
  - unfold mach. cbn [y_app y_gone y_machines ap_machines ap_events ap_store ap_streams]. split; [exact L|]. split; [lia|]. split; intros m; rewrite own_snoc, app_nil_r; [apply O|apply A].
Qed.

(** What holds of the records *)
Definition recs (s : sys T) : Prop := forall m e c, nth_error (ap_machines (y_app T s)) m = Some e -> nth_error (y_machines T s) m = Some c ->
  (forall j e', nth_error (ap_machines (y_app T s)) j = Some e' -> we_id e' = we_id e -> j = m) ->
  holds (y_app T s) (we_id e) (match last_value saved_by None (effects (c_log T c)) with Some p => execution_of (we_id e) p | None => e end).
Lemma recs_inv xs : forall s, YRUN NEW xs = Some s -> records_kept xs -> recs s.
Proof.
  induction xs as [|x xs IH] using rev_ind; intros s R K.
  { injection R as <-. intros [|m] e c; discriminate. }
  rewrite yrun_app in R. destruct (YRUN NEW xs) as [s0|] eqn:R0; [|discriminate]. cbn [yrun] in R. destruct (YSTEP s0 x) as [s1|] eqn:S; [|discriminate]. injection R as <-.
  assert (K0 : records_kept xs) by (intro X; apply K, in_or_app; left; exact X). specialize (IH _ eq_refl K0). destruct (mach_inv _ _ R0) as (L & G & O & A).
  apply step_view in S. destruct S as [name uuid input now id s' I -> |r s' N H1 H2 H3 H4 H5 H6|m a c c' fs s' G' N S' Lg -> |k s' ->].
  - intros m e c. cbn [y_app y_gone y_machines ap_machines]. intros Hm Hc U. unfold holds. cbn [ap_store y_app].
    destruct (Nat.lt_ge_cases m (length (y_machines T s0))) as [Lt|Ge].
    + rewrite nth_error_app1 in Hm by lia. rewrite nth_error_app1 in Hc by lia. rewrite get_other.
      * apply (IH m e c Hm Hc). intros j e' Hj. apply U. rewrite nth_error_app1; [exact Hj|]. apply nth_error_Some. congruence.
      * intros E. assert (length (ap_machines (y_app T s0)) = m); [|lia]. eapply U; [rewrite nth_error_app2, Nat.sub_diag by lia; reflexivity|]. exact E.
    + rewrite nth_error_app2 in Hc by lia. rewrite nth_error_app2 in Hm by lia. rewrite <- L in Hm. destruct (m - length (y_machines T s0)) as [|d] eqn:D; [|destruct d; discriminate]. injection Hc as <-. injection Hm as <-.
      cbn [we_id execution_of]. rewrite lookup_save. reflexivity.
  - intros m e c. rewrite H2, H5. unfold holds. rewrite H1. apply IH.
  - intros j e cj. cbn [y_app y_gone y_machines]. rewrite acts_machines, set_nth_nth, (Nat.eqb_sym j m). intros Hm Hc U. unfold holds.
    destruct (A _ _ N) as (e0 & E0 & _). rewrite (acts_store _ _ e0 _ _ _ E0). destruct (Nat.eqb_spec m j) as [->|D].
    + rewrite N in Hc. injection Hc as <-. rewrite E0 in Hm. injection Hm as ->. rewrite String.eqb_refl, Lg. unfold effects. rewrite map_app, map_map. cbn [snd]. rewrite map_id, last_value_app.
      specialize (IH j e c E0 N U). unfold holds in IH. rewrite IH. unfold effects. generalize (last_value saved_by None (map snd (c_log T c))). clear.
      intros o. assert (Q : last_value saved_by o fs = match last_value saved_by None fs with Some p => Some p | None => o end).
      { induction fs as [|f fs IHf] using rev_ind; [destruct o; reflexivity|]. rewrite !last_value_app. cbn [last_value]. destruct (saved_by f); [reflexivity|exact IHf]. }
      rewrite Q. destruct (last_value saved_by None fs); reflexivity.
    + destruct (String.eqb_spec (we_id e) (we_id e0)) as [E|E]; [exfalso; apply D; eapply U; [exact E0|symmetry; exact E]|]. apply (IH j e cj Hm Hc U).
  - destruct k; [|exfalso; apply K, in_or_app; right; left; reflexivity]. intros m e c. cbn [y_app y_gone y_machines ap_machines ap_store]. unfold holds. cbn [ap_store]. apply IH.
Qed.

(** Events are only added, and a stream goes on reading from where it began *)
Lemma stream_inv ys n k : forall s s' st, YRUN s ys = Some s' -> nth_error (ap_streams (y_app T s)) k = Some st -> reads n (ap_events (y_app T s)) st ->
  exists st', nth_error (ap_streams (y_app T s')) k = Some st' /\ reads n (ap_events (y_app T s')) st' /\ exists new, ap_events (y_app T s') = ap_events (y_app T s) ++ new.
Proof.
  induction ys as [|x ys IH]; intros s s' st R N Rd.
  { injection R as <-. exists st. split; [exact N|]. split; [exact Rd|]. exists []. rewrite app_nil_r. reflexivity. }
  cbn [yrun] in R. destruct (YSTEP s x) as [s1|] eqn:S; [|discriminate].
  assert (Q : exists st1 new, nth_error (ap_streams (y_app T s1)) k = Some st1 /\ reads n (ap_events (y_app T s1)) st1 /\ ap_events (y_app T s1) = ap_events (y_app T s) ++ new).
  { apply step_view in S. destruct S as [name uuid input now id s1 I -> |r s1 Nr H1 H2 H3 H4 H5 H6|m a c c' fs s1 G' Nm S' Lg -> |b s1 ->].
    - exists st, []. cbn [y_app ap_streams ap_events]. rewrite app_nil_r. auto.
    - rewrite H6, (step_stream _ _ _ _ _ N), H3. eexists _, []. split; [reflexivity|]. rewrite app_nil_r. split; [|reflexivity]. destruct r as [? ? ? ? ?|?| |?|j]; cbn [act_of]; try exact Rd. destruct (Nat.eqb k j); [apply reads_poll|]; exact Rd.
    - exists st, (map (pair m) (events_in fs)). cbn [y_app]. rewrite acts_streams, acts_events. split; [exact N|]. split; [apply reads_more; exact Rd|reflexivity].
    - exists (cut st), []. cbn [y_app ap_streams ap_events]. rewrite app_nil_r, nth_error_map, N. split; [reflexivity|]. split; [exact Rd|reflexivity]. }
  destruct Q as (st1 & new & N1 & R1 & E1). destruct (IH _ _ _ R N1 R1) as (st' & N' & R' & new' & E'). exists st'. split; [exact N'|]. split; [exact R'|]. exists (new ++ new'). rewrite E', E1, app_assoc. reflexivity.
Qed.

(** Machines that were started stay, and those of a process that has stopped stay as they are *)
Lemma gone_inv ys : forall s s' m e c, YRUN s ys = Some s' -> length (y_machines T s) = length (ap_machines (y_app T s)) -> m < y_gone T s -> started_as s m e c ->
  length (y_machines T s') = length (ap_machines (y_app T s')) /\ m < y_gone T s' /\ started_as s' m e c.
Proof.
  induction ys as [|x ys IH]; intros s s' m e c R L G (N1 & N2); [injection R as <-; repeat split; assumption|].
  cbn [yrun] in R. destruct (YSTEP s x) as [s1|] eqn:S; [|discriminate]. assert (Q : length (y_machines T s1) = length (ap_machines (y_app T s1)) /\ m < y_gone T s1 /\ started_as s1 m e c); [|destruct Q as (L1 & G1 & A1); exact (IH _ _ _ _ _ R L1 G1 A1)].
  apply step_view in S. destruct S as [name uuid input now id s1 I -> |r s1 Nr H1 H2 H3 H4 H5 H6|j a c0 c' fs s1 G' Nm S' Lg -> |b s1 ->]; unfold started_as; cbn [y_app y_gone y_machines ap_machines].
  - rewrite !app_length. split; [cbn; lia|]. split; [exact G|]. split; rewrite nth_error_app1; try assumption; apply nth_error_Some; congruence.
  - rewrite H2, H4, H5. auto.
  - rewrite acts_machines, set_nth_len, set_nth_nth. split; [exact L|]. split; [exact G|]. split; [assumption|]. destruct (Nat.eqb_spec m j); [lia|assumption].
  - split; [exact L|]. split; [apply nth_error_Some; congruence|auto].
Qed.
(** An id that belongs to no machine of the present process *)
Definition quiet (id : string) (s : sys T) : Prop := length (y_machines T s) = length (ap_machines (y_app T s)) /\ forall j e, y_gone T s <= j -> nth_error (ap_machines (y_app T s)) j = Some e -> we_id e <> id.
Lemma quiet_inv ys id : forall s s', YRUN s ys = Some s' -> quiet id s -> not_run_again id ys ->
  quiet id s' /\ (get_execution (ap_store (y_app T s')) id = get_execution (ap_store (y_app T s)) id \/ (In (AStop false) ys /\ get_execution (ap_store (y_app T s')) id = Err id)).
Proof.
  induction ys as [|x ys IH]; intros s s' R Q NR; [injection R as <-; auto|].
  cbn [yrun] in R. destruct (YSTEP s x) as [s1|] eqn:S; [|discriminate].
  assert (NR' : not_run_again id ys) by (intros ? ? ? ? I; apply (NR name uuid input now); right; exact I).
  assert (Q1 : quiet id s1 /\ (get_execution (ap_store (y_app T s1)) id = get_execution (ap_store (y_app T s)) id \/ (x = AStop false /\ get_execution (ap_store (y_app T s1)) id = Err id))).
  { destruct Q as (L & Q). apply step_view in S; destruct S as [name uuid input now id' s1 I -> |r s1 Nr H1 H2 H3 H4 H5 H6|j a c0 c' fs s1 G' Nm S' Lg -> |b s1 ->]; unfold quiet; cbn [y_app y_gone y_machines ap_machines ap_store]; rewrite ?H1, ?H2, ?H4, ?H5, ?app_length, ?acts_machines, ?set_nth_len; auto.
    - assert (D : id' <> id) by (intros ->; eapply NR; [left; reflexivity|exact I]). split; [split; [cbn; lia|]|left; apply get_other; exact D].
      intros j e G N. destruct (Nat.lt_ge_cases j (length (ap_machines (y_app T s)))) as [Lt|Ge]; [rewrite nth_error_app1 in N by exact Lt; eapply Q; eauto|].
      rewrite nth_error_app2 in N by exact Ge. destruct (j - length (ap_machines (y_app T s))) as [|d]; [|destruct d; discriminate]. injection N as <-. exact D.
    - split; [auto|]. left. assert (Lt : j < length (ap_machines (y_app T s))) by (rewrite <- L; apply nth_error_Some; congruence). destruct (nth_error (ap_machines (y_app T s)) j) as [e|] eqn:N; [|apply nth_error_None in N; lia].
      rewrite (acts_store _ _ e) by exact N. destruct (String.eqb_spec id (we_id e)) as [E|E]; [|reflexivity]. exfalso. eapply Q; [exact G'|exact N|symmetry; exact E].
    - split; [|destruct b; [left; reflexivity|right; split; reflexivity]]. split; [exact L|]. intros j e G N. assert (j < length (ap_machines (y_app T s))) by (apply nth_error_Some; congruence). lia. }
  destruct Q1 as (Q1 & D). destruct (IH _ _ R Q1 NR') as (Q' & D'). split; [exact Q'|]. destruct D' as [->|(I & ->)]; [|right; split; [right; exact I|reflexivity]].
  destruct D as [->|(-> & ->)]; [left; reflexivity|right; split; [left; reflexivity|reflexivity]].
Qed.
(** Steps of one machine of the present process *)
Lemma drive_machine acts : forall s m c c', y_gone T s <= m -> nth_error (y_machines T s) m = Some c -> RUN c acts = Some c' ->
  exists s', YRUN s (map (AMachine m) acts) = Some s' /\ nth_error (y_machines T s') m = Some c' /\ ap_machines (y_app T s') = ap_machines (y_app T s)
    /\ y_gone T s' = y_gone T s /\ forall j, j <> m -> nth_error (y_machines T s') j = nth_error (y_machines T s) j.
Proof.
  induction acts as [|a acts IH]; intros s m c c' G N R; [injection R as <-; exists s; auto|]. cbn [sm_run] in R. destruct (SM_STEP c a) as [c1|] eqn:S; [|discriminate].
  cbn [map yrun]. assert (Y : exists s1, YSTEP s (AMachine m a) = Some s1) by (cbn [ystep]; apply Nat.ltb_ge in G; rewrite G, N, S; eauto). destruct Y as (s1 & Y). rewrite Y.
  apply step_view in Y. inversion Y as [| |? ? c0 c0' fs ? G' Nm S' Lg E|]; subst. rewrite N in Nm. injection Nm as <-. rewrite S in S'. injection S' as <-.
  edestruct (IH (mk_sys T (steps cap (y_app T s) (acts_of m fs)) (y_gone T s) (set_nth m c1 (y_machines T s))) m c1 c') as (s' & Y' & N' & A' & Gg & O').
  - exact G.
  - cbn [y_machines]. rewrite set_nth_nth, Nat.eqb_refl, N. reflexivity.
  - exact R.
  - exists s'. split; [exact Y'|]. split; [exact N'|]. split; [rewrite A'; cbn [y_app]; apply acts_machines|]. split; [exact Gg|]. intros j D. rewrite (O' j D). cbn [y_machines]. rewrite set_nth_nth. destruct (Nat.eqb_spec j m); [contradiction|reflexivity].
Qed.

(** Every stream reads from where it began *)
Lemma streams_read xs : forall s, YRUN NEW xs = Some s -> forall k st, nth_error (ap_streams (y_app T s)) k = Some st -> exists n, reads n (ap_events (y_app T s)) st.
Proof.
  induction xs as [|x xs IH] using rev_ind; intros s R k st N; [injection R as <-; destruct k; discriminate|].
  rewrite yrun_app in R. destruct (YRUN NEW xs) as [s0|] eqn:R0; [|discriminate]. specialize (IH _ eq_refl).
  destruct (nth_error (ap_streams (y_app T s0)) k) as [st0|] eqn:N0.
  - destruct (IH _ _ N0) as (n & Rd). destruct (stream_inv [x] n k s0 s st0 R N0 Rd) as (st' & N' & Rd' & _). rewrite N in N'. injection N' as <-. eauto.
  - cbn [yrun] in R. destruct (YSTEP s0 x) as [s1|] eqn:S; [|discriminate]. injection R as <-. apply step_view in S. destruct S as [name uuid input now id' s1 I -> |r' s1 Nr H1 H2 H3 H4 H5 H6|j a c0 c' fs s1 G' Nm S' Lg -> |b s1 ->]; cbn [y_app ap_streams] in N.
    + congruence.
    + rewrite H6 in N. destruct r' as [? ? ? ? ok|?| |?|j]; cbn [act_of step fst ap_streams] in N; try congruence.
      * cbv zeta in N. destruct ok; cbn [fst ap_streams] in N; congruence.
      * cbn [fst ap_streams] in N. apply nth_error_None in N0. rewrite nth_error_app2 in N by exact N0. destruct (k - length (ap_streams (y_app T s0))) as [|d]; [|destruct d; discriminate]. injection N as <-. rewrite H3. exists (length (ap_events (y_app T s0))). apply opened_reads.
      * cbn [fst ap_streams] in N. rewrite update_nth, N0 in N. destruct (Nat.eqb k j); discriminate.
    + rewrite acts_streams in N. congruence.
    + rewrite nth_error_map, N0 in N. discriminate.
Qed.
End P.
