From Verif Require Import Base AckModel AckSpec.
Open Scope string_scope.
Local Open Scope N_scope.
Local Open Scope list_scope.

(** ** Runs *)
Lemma wrun_app cf evs1 evs2 w log :
  wrun cf w log (evs1 ++ evs2) =
  match wrun cf w log evs1 with Some (w', log') => wrun cf w' log' evs2 | None => None end.
Proof.
  revert w log. induction evs1 as [|e evs1 IH]; intros; cbn; [reflexivity|].
  destruct (wstep cf w e) as [[w' out]|]; auto.
Qed.

Lemma reachable_ind' cf (P : worker -> list ack_log -> Prop) :
  P new_worker [] ->
  (forall w log ev w' out, reachable cf w log -> P w log -> wstep cf w ev = Some (w', out) -> P w' (log ++ out)) ->
  forall w log, reachable cf w log -> P w log.
Proof.
  intros H0 HS w log (evs & H). revert w log H.
  induction evs as [|ev evs IH] using rev_ind; intros w log H.
  - inversion H; subst; exact H0.
  - rewrite wrun_app in H. destruct (wrun cf new_worker [] evs) as [[w1 l1]|] eqn:E; [|discriminate].
    cbn in H. destruct (wstep cf w1 ev) as [[w2 out]|] eqn:E2; [|discriminate]. inversion H; subst.
    eapply HS; eauto. exists evs; exact E.
Qed.

Lemma reachable_step cf w log ev w' out :
  reachable cf w log -> wstep cf w ev = Some (w', out) -> reachable cf w' (log ++ out).
Proof.
  intros (evs & H) Hs. exists (evs ++ [ev]). rewrite wrun_app, H. cbn. now rewrite Hs.
Qed.

Lemma reachable_run cf evs : forall w log w' log',
  reachable cf w log -> wrun cf w log evs = Some (w', log') -> reachable cf w' log'.
Proof.
  intros w log w' log' (e0 & H) Hr. exists (e0 ++ evs). now rewrite wrun_app, H.
Qed.

(** Each log entry was put by one step of a reachable state. *)
Definition put_by (cf : ack_config) (log : list ack_log) : Prop :=
  forall pre e post, log = pre ++ e :: post ->
  exists w0 log0 ev w1 out o1 o2, reachable cf w0 log0 /\ wstep cf w0 ev = Some (w1, out) /\
    out = o1 ++ e :: o2 /\ pre = log0 ++ o1 /\ exists r, post = o2 ++ r.
Lemma entry_step cf w log : reachable cf w log -> put_by cf log.
Proof.
  revert w log. apply (reachable_ind' cf (fun _ log => put_by cf log)).
  - intros pre e post H. destruct pre; discriminate.
  - intros w log ev w' out R IH Hs pre e post H.
    destruct (Nat.lt_ge_cases (length pre) (length log)) as [Hl|Hl].
    + assert (E: log = pre ++ e :: firstn (length log - length pre - 1) post).
      { apply (f_equal (firstn (length log))) in H. rewrite firstn_app, firstn_all, Nat.sub_diag in H.
        cbn in H. rewrite app_nil_r in H. rewrite H at 1. rewrite firstn_app.
        rewrite firstn_all2 by lia. f_equal.
        destruct (length log - length pre)%nat as [|k] eqn:Ek; [lia|]. cbn. now rewrite Nat.sub_0_r. }
      destruct (IH _ _ _ E) as (w0 & log0 & ev0 & w1 & out0 & o1 & o2 & A & B & C & D & r & F).
      exists w0, log0, ev0, w1, out0, o1, o2. repeat (split; [assumption|]).
      exists (r ++ skipn (length log - length pre - 1) post).
      rewrite app_assoc, <- F. now rewrite firstn_skipn.
    + assert (E: exists o1, pre = log ++ o1).
      { exists (skipn (length log) pre). apply (f_equal (firstn (length log))) in H.
        rewrite firstn_app, firstn_all, Nat.sub_diag in H. cbn in H. rewrite app_nil_r in H.
        rewrite firstn_app in H. replace (length log - length pre)%nat with O in H by lia.
        cbn in H. rewrite app_nil_r in H. rewrite H at 1. now rewrite firstn_skipn. }
      destruct E as (o1 & ->). rewrite <- app_assoc in H. apply app_inv_head in H.
      exists w, log, ev, w', out, o1, post. repeat (split; [assumption || reflexivity|]).
      exists []. now rewrite app_nil_r.
Qed.

(** ** The map as a function of the log *)
Definition upd (id : string) (o : option entry) (e : ack_log) : option entry :=
  match e with
  | LRecord id' st now =>
      if string_dec id' id then
        let at0 := match o with Some e => en_attempts e | None => 0 end in
        Some (if is_pending st then {| en_status := st; en_attempts := at0 + 1; en_last := Some now |}
              else {| en_status := st; en_attempts := at0;
                      en_last := match o with Some e => en_last e | None => None end |})
      else o
  | LForget id' => if string_dec id' id then None else o
  | _ => o
  end.
Definition view (id : string) (log : list ack_log) : option entry := fold_left (upd id) log None.

Lemma view_app id a b : view id (a ++ b) = fold_left (upd id) b (view id a).
Proof. unfold view. apply fold_left_app. Qed.

Lemma view_snoc id a e : view id (a ++ [e]) = upd id (view id a) e.
Proof. now rewrite view_app. Qed.

Lemma upd_decides id o l now : fold_left (upd id) (map (LDecide now) l) o = o.
Proof. induction l; cbn; auto. Qed.

Definition agrees (w : worker) (log : list ack_log) : Prop :=
  NoDup (keys (w_acks w)) /\ forall id, lookup id (w_acks w) = view id log.

Lemma reachable_agrees cf w log : reachable cf w log -> agrees w log.
Proof.
  revert w log. apply (reachable_ind' cf agrees).
  - split; [constructor|reflexivity].
  - intros w log ev w' out _ (Hn & Hv) Hs.
    assert (Same: forall o, out = o -> w_acks w' = w_acks w ->
      (forall id x, fold_left (upd id) o x = x) -> agrees w' (log ++ out)).
    { intros o -> Ew Ho. split; [now rewrite Ew|]. intros id. rewrite Ew, view_app, Ho. apply Hv. }
    destruct ev as [[id st|id tx|id tx] now|now| | | |i]; cbn in Hs.
    + inversion Hs; subst; clear Hs. split; cbn.
      * now apply NoDup_insert.
      * intros k. rewrite view_snoc. cbn. unfold record_ack. rewrite <- !Hv. rewrite lookup_insert.
        destruct (String.eqb_spec k id) as [->|Hne].
        { destruct (string_dec id id); [reflexivity|congruence]. }
        { destruct (string_dec id k); [congruence|reflexivity]. }
    + inversion Hs; subst. eapply Same; eauto.
    + inversion Hs; subst. eapply Same; eauto.
    + destruct (w_ticker w); try discriminate. inversion Hs; subst. eapply Same; eauto.
    + destruct (w_ticker w) as [|t| |]; try discriminate. inversion Hs; subst. eapply Same; eauto.
      intros; apply upd_decides.
    + destruct (w_ticker w) as [| |[|a rest]|]; try discriminate. inversion Hs; subst. eapply Same; eauto.
    + destruct (w_ticker w) as [| | |id rest]; try discriminate. inversion Hs; subst; clear Hs. split; cbn.
      * now apply NoDup_remove_key.
      * intros k. rewrite view_snoc. cbn. rewrite lookup_remove, Hv.
        destruct (String.eqb_spec k id) as [->|Hne].
        { destruct (string_dec id id); [reflexivity|congruence]. }
        { destruct (string_dec id k); [congruence|reflexivity]. }
    + destruct (nth_error (w_waits w) i) as [[id tx]|]; [|discriminate].
      destruct (wait_answer (w_acks w) id); inversion Hs; subst; eapply Same; eauto.
Qed.

(** ** The view in the vocabulary of the specification *)
Lemma view_says id log :
  match view id log with
  | Some e => last_value (says id) None log = Some (Some (en_status e))
  | None => last_value (says id) None log = None \/ last_value (says id) None log = Some None
  end.
Proof.
  induction log as [|e log IH] using rev_ind; [now left|].
  rewrite view_snoc, last_value_app. cbn.
  destruct e as [id' st now|id'| | | |]; cbn; try exact IH.
  - destruct (string_dec id' id); [|exact IH]. destruct (is_pending st); reflexivity.
  - destruct (string_dec id' id); [|exact IH]. now right.
Qed.

Lemma last_value_none_iff {O V} (f : O -> option V) os :
  last_value f None os = None <-> forall o, In o os -> f o = None.
Proof.
  split; [|apply last_value_none].
  induction os as [|o os IH] using rev_ind; [intros _ o []|].
  rewrite last_value_app. cbn. destruct (f o) eqn:E; [discriminate|].
  intros H x Hx. apply in_app_or in Hx. destruct Hx as [Hx|[<-|[]]]; auto.
Qed.

Lemma view_current id log st : current id log st <-> exists e, view id log = Some e /\ en_status e = st.
Proof.
  unfold current. rewrite <- last_value_assigned. pose proof (view_says id log) as H.
  destruct (view id log) as [e|].
  - rewrite H. split; [intros E; inversion E; eauto|intros (e' & E & <-); inversion E; reflexivity].
  - split; [destruct H; congruence|intros (? & ? & _); discriminate].
Qed.

Lemma view_untracked id log : untracked id log <-> view id log = None.
Proof.
  unfold untracked. rewrite <- last_value_assigned, <- last_value_none_iff. pose proof (view_says id log) as H.
  destruct (view id log) as [e|]; [|tauto]. rewrite H. split; [intros [?|?]; discriminate|discriminate].
Qed.

(** Log since the last forgetting. *)
Definition rec (id : string) (log : list ack_log) : list ack_log :=
  fold_left (fun acc e => match e with LForget id' => if string_dec id' id then [] else acc ++ [e] | _ => acc ++ [e] end) log [].

Lemma rec_snoc id log e : rec id (log ++ [e]) =
  match e with LForget id' => if string_dec id' id then [] else rec id log ++ [e] | _ => rec id log ++ [e] end.
Proof. unfold rec. rewrite fold_left_app. reflexivity. Qed.

Lemma rec_life id log : life id log (rec id log).
Proof.
  induction log as [|e log (old & E & Hn & Ho)] using rev_ind.
  - exists []. repeat split; auto.
  - rewrite rec_snoc.
    assert (G: e <> LForget id -> life id (log ++ [e]) (rec id log ++ [e])).
    { intros He. exists old. split; [now rewrite E at 1; rewrite app_assoc|]. split; [|assumption].
      intros Hi. apply in_app_or in Hi. destruct Hi as [Hi|[Hi|[]]]; auto. }
    destruct e; try (apply G; discriminate). destruct (string_dec id0 id) as [->|Hne].
    + exists (log ++ [LForget id]). split; [now rewrite app_nil_r|]. split; [intros []|]. right. eauto.
    + apply G. congruence.
Qed.

Lemma life_rec id log recent : life id log recent -> recent = rec id log.
Proof.
  intros (old & -> & Hn & Ho).
  induction recent as [|e recent IH] using rev_ind.
  - rewrite app_nil_r. destruct Ho as [->|(o & ->)]; [reflexivity|]. rewrite rec_snoc.
    destruct (string_dec id id); [reflexivity|congruence].
  - rewrite app_assoc, rec_snoc. rewrite <- IH by (intros H; apply Hn; apply in_or_app; auto).
    destruct e; try reflexivity. destruct (string_dec id0 id) as [->|]; [|reflexivity].
    exfalso. apply Hn. apply in_or_app. right. now left.
Qed.

Definition send_time (id : string) (e : ack_log) : option N :=
  match e with LRecord id' (Pending _ _) t => if string_dec id' id then Some t else None | _ => None end.

Lemma send_time_none id e : send_time id e = None <-> is_send id e = false.
Proof.
  destruct e as [id' [] t| | | | |]; cbn; try tauto. destruct (string_dec id' id); split; congruence.
Qed.

Definition nsends (id : string) (l : list ack_log) : N := N.of_nat (length (filter (is_send id) l)).

Lemma nsends_snoc id l e : nsends id (l ++ [e]) = nsends id l + (if is_send id e then 1 else 0).
Proof.
  unfold nsends. rewrite filter_app, app_length. cbn. destruct (is_send id e); cbn; lia.
Qed.

Lemma view_rec id log :
  match view id log with
  | Some e => en_attempts e = nsends id (rec id log) /\ en_last e = last_value (send_time id) None (rec id log)
  | None => nsends id (rec id log) = 0 /\ last_value (send_time id) None (rec id log) = None
  end.
Proof.
  induction log as [|e log IH] using rev_ind; [split; reflexivity|].
  rewrite view_snoc, rec_snoc.
  assert (Skip: send_time id e = None -> forall o, o = view id log ->
    match o with
    | Some e0 => en_attempts e0 = nsends id (rec id log ++ [e]) /\ en_last e0 = last_value (send_time id) None (rec id log ++ [e])
    | None => nsends id (rec id log ++ [e]) = 0 /\ last_value (send_time id) None (rec id log ++ [e]) = None
    end).
  { intros Hs o ->. rewrite nsends_snoc, last_value_app. cbn. rewrite Hs.
    rewrite (proj1 (send_time_none id e) Hs). rewrite N.add_0_r. exact IH. }
  destruct e as [id' st now|id'|now a|a|id' tx st|id' tx st]; try (apply Skip; reflexivity).
  - cbn [upd]. destruct (string_dec id' id) as [->|Hne].
    2:{ apply Skip; [|reflexivity]. cbn. destruct st; try reflexivity. destruct (string_dec id' id); congruence. }
    rewrite nsends_snoc, last_value_app. destruct st as [m cl| |]; cbn; destruct (string_dec id id); try congruence.
    + destruct (view id log) as [e0|]; cbn; destruct IH as [-> _]; split; auto; lia.
    + destruct (view id log) as [e0|]; cbn; destruct IH as [-> ->]; split; auto; lia.
    + destruct (view id log) as [e0|]; cbn; destruct IH as [-> ->]; split; auto; lia.
  - cbn [upd]. destruct (string_dec id' id) as [->|Hne]; [split; reflexivity|].
    apply Skip; reflexivity.
Qed.

Lemma sends_iff id log n : sends id log n <-> n = nsends id (rec id log).
Proof.
  split.
  - intros (r & Hl & ->). now rewrite (life_rec _ _ _ Hl).
  - intros ->. exists (rec id log). split; [apply rec_life|reflexivity].
Qed.

Lemma last_send_iff id log t : last_send id log t <-> last_value (send_time id) None (rec id log) = Some t.
Proof.
  rewrite last_value_assigned. split.
  - intros (r & pre & m & cl & post & Hl & -> & Hp).
    apply life_rec in Hl. rewrite <- Hl. exists pre, (LRecord id (Pending m cl) t), post.
    split; [reflexivity|]. split; [cbn; destruct (string_dec id id); congruence|].
    intros o Ho. apply send_time_none. auto.
  - intros (pre & o & post & E & Ho & Hp). destruct o as [id' [m cl| |] t'| | | | |]; try discriminate.
    cbn in Ho. destruct (string_dec id' id) as [->|]; [|discriminate]. inversion Ho; subst.
    exists (rec id log), pre, m, cl, post. split; [apply rec_life|]. split; [exact E|].
    intros e He. apply send_time_none. auto.
Qed.

(** ** C31 *)
Lemma check_spec cf w log : reachable cf w log -> forall pre id tx st post, log = pre ++ LCheck id tx st :: post ->
  current id pre st \/ (untracked id pre /\ st = Lost).
Proof.
  intros R pre id tx st post E.
  destruct (entry_step cf w log R _ _ _ E) as (w0 & log0 & ev & w1 & out & o1 & o2 & R0 & Hs & Ho & -> & _).
  apply reachable_agrees in R0. destruct R0 as [_ V].
  assert (H: o1 = [] /\ st = check_answer (w_acks w0) id).
  { destruct ev as [[id' st'|id' tx'|id' tx'] now|now| | | |i]; cbn in Hs.
    - inversion Hs; subst. destruct o1 as [|? [|]]; discriminate.
    - inversion Hs; subst. destruct o1 as [|? [|]]; try discriminate. inversion H1; subst. auto.
    - inversion Hs; subst. destruct o1; discriminate.
    - destruct (w_ticker w0); try discriminate. inversion Hs; subst. destruct o1; discriminate.
    - destruct (w_ticker w0) as [|t| |]; try discriminate. inversion Hs; subst.
      exfalso. assert (Hi: In (LCheck id tx st) (map (LDecide t) (flat_map (decide cf t) (w_acks w0))))
        by (rewrite H1; apply in_or_app; right; now left).
      apply in_map_iff in Hi. destruct Hi as (? & ? & _); discriminate.
    - destruct (w_ticker w0) as [| |[|a rest]|]; try discriminate. inversion Hs; subst. destruct o1 as [|? [|]]; discriminate.
    - destruct (w_ticker w0) as [| | |i rest]; try discriminate. inversion Hs; subst. destruct o1 as [|? [|]]; discriminate.
    - destruct (nth_error (w_waits w0) i) as [[i' tx']|]; [|discriminate].
      destruct (wait_answer (w_acks w0) i'); inversion Hs; subst; destruct o1 as [|? [|]]; discriminate. }
  destruct H as [-> ->]. rewrite app_nil_r. unfold check_answer. rewrite V.
  destruct (view id log0) as [e|] eqn:Ev.
  - left. apply view_current. eauto.
  - right. split; [now apply view_untracked|reflexivity].
Qed.

Lemma wait_spec cf w log : reachable cf w log -> forall pre id tx st post, log = pre ++ LWait id tx st :: post ->
  is_pending st = false /\ (current id pre st \/ (untracked id pre /\ st = Lost)).
Proof.
  intros R pre id tx st post E.
  destruct (entry_step cf w log R _ _ _ E) as (w0 & log0 & ev & w1 & out & o1 & o2 & R0 & Hs & Ho & -> & _).
  apply reachable_agrees in R0. destruct R0 as [_ V].
  assert (H: o1 = [] /\ wait_answer (w_acks w0) id = Some st).
  { destruct ev as [[id' st'|id' tx'|id' tx'] now|now| | | |i]; cbn in Hs.
    - inversion Hs; subst. destruct o1 as [|? [|]]; discriminate.
    - inversion Hs; subst. destruct o1 as [|? [|]]; discriminate.
    - inversion Hs; subst. destruct o1; discriminate.
    - destruct (w_ticker w0); try discriminate. inversion Hs; subst. destruct o1; discriminate.
    - destruct (w_ticker w0) as [|t| |]; try discriminate. inversion Hs; subst.
      exfalso. assert (Hi: In (LWait id tx st) (map (LDecide t) (flat_map (decide cf t) (w_acks w0))))
        by (rewrite H1; apply in_or_app; right; now left).
      apply in_map_iff in Hi. destruct Hi as (? & ? & _); discriminate.
    - destruct (w_ticker w0) as [| |[|a rest]|]; try discriminate. inversion Hs; subst. destruct o1 as [|? [|]]; discriminate.
    - destruct (w_ticker w0) as [| | |i rest]; try discriminate. inversion Hs; subst. destruct o1 as [|? [|]]; discriminate.
    - destruct (nth_error (w_waits w0) i) as [[i' tx']|]; [|discriminate].
      destruct (wait_answer (w_acks w0) i') as [st'|] eqn:Ew; inversion Hs; subst;
        destruct o1 as [|? [|]]; try discriminate. inversion H1; subst. auto. }
  destruct H as [-> H]. rewrite app_nil_r. unfold wait_answer in H. rewrite V in H.
  destruct (view id log0) as [e|] eqn:Ev.
  - destruct (is_pending (en_status e)) eqn:Ep; [discriminate|]. inversion H; subst. split; [assumption|].
    left. apply view_current. eauto.
  - inversion H; subst. split; [reflexivity|]. right. split; [now apply view_untracked|reflexivity].
Qed.

Lemma current_recorded id log st : current id log st -> exists t, In (LRecord id st t) log.
Proof.
  intros (pre & e & post & -> & Hs & _). destruct e as [id' st' t|id'| | | |]; cbn in Hs; try discriminate.
  - destruct (string_dec id' id) as [->|]; [|discriminate]. inversion Hs; subst. exists t.
    apply in_or_app. right. now left.
  - destruct (string_dec id' id); discriminate.
Qed.

(** A check or wait on an idle worker is answered in one step. *)
Lemma check_enabled cf w id tx now : exists w' st, wstep cf w (WRecv (MCheck id tx) now) = Some (w', [LCheck id tx st]).
Proof. cbn. eauto. Qed.

(** ** C32: decisions *)
Lemma decide_due cf now m log a : NoDup (keys m) -> (forall id, lookup id m = view id log) ->
  (In a (flat_map (decide cf now) m) <-> due cf log now a).
Proof.
  intros Hn V. split.
  - intros H. apply in_flat_map in H. destruct H as ([id e] & Hi & Hd).
    assert (Hl: view id log = Some e) by (rewrite <- V; now apply In_lookup).
    pose proof (view_rec id log) as Hr. rewrite Hl in Hr. destruct Hr as [Ha Hla].
    cbn in Hd. destruct (en_status e) as [msg cl| |] eqn:Es; try destruct Hd.
    destruct (en_last e) as [t|] eqn:El; [|destruct Hd].
    destruct (N.ltb_spec (cf_timeout cf) (now - t)) as [Ht|]; [|destruct Hd].
    assert (Hc: current id log (Pending msg cl)) by (apply view_current; eauto).
    assert (Hls: last_send id log t) by (apply last_send_iff; congruence).
    assert (Hns: sends id log (en_attempts e)) by (apply sends_iff; congruence).
    destruct Hd as [<-|[]]. destruct (N.leb_spec (cf_max cf) (en_attempts e)); cbn.
    + exists msg. split; [assumption|]. eauto 8.
    + split; [reflexivity|]. split; [assumption|]. eauto 8.
  - intros H.
    assert (G: exists id m cl n t, current id log (Pending m cl) /\ sends id log n /\ last_send id log t /\
      cf_timeout cf < now - t /\ a = if cf_max cf <=? n then ActLost id cl else Resend id id m cl).
    { destruct a as [c id msg cl|id cl]; cbn in H.
      - destruct H as (-> & Hc & n & t & H1 & H2 & H3 & H4). exists id, msg, cl, n, t.
        repeat (split; [assumption|]). now rewrite (proj2 (N.leb_gt _ _)).
      - destruct H as (msg & Hc & n & t & H1 & H2 & H3 & H4). exists id, msg, cl, n, t.
        repeat (split; [assumption|]). now rewrite (proj2 (N.leb_le _ _)). }
    destruct G as (id & msg & cl & n & t & Hc & Hs & Hls & Ht & ->).
    apply view_current in Hc. destruct Hc as (e & Hv & He). apply sends_iff in Hs. apply last_send_iff in Hls.
    pose proof (view_rec id log) as Hr. rewrite Hv in Hr. destruct Hr as [Ha Hla].
    apply in_flat_map. exists (id, e). split.
    + apply lookup_In. now rewrite V.
    + cbn. rewrite He, Hla, Hls. rewrite (proj2 (N.ltb_lt _ _) Ht). left. rewrite Ha, <- Hs. reflexivity.
Qed.

Lemma due_ext cf now a l1 l2 : (forall id, view id l1 = view id l2) -> (forall id, nsends id (rec id l1) = nsends id (rec id l2)) ->
  (forall id, last_value (send_time id) None (rec id l1) = last_value (send_time id) None (rec id l2)) ->
  due cf l1 now a -> due cf l2 now a.
Proof.
  intros H1 H2 H3. 
  assert (C: forall id st, current id l1 st -> current id l2 st) by (intros id st; rewrite !view_current, H1; auto).
  assert (S: forall id n, sends id l1 n -> sends id l2 n) by (intros id n; rewrite !sends_iff, H2; auto).
  assert (L: forall id t, last_send id l1 t -> last_send id l2 t) by (intros id t; rewrite !last_send_iff, H3; auto).
  destruct a; cbn.
  - intros (? & ? & n & t & ? & ? & ? & ?). split; [assumption|]. split; [auto|]. exists n, t. auto.
  - intros (m & ? & n & t & ? & ? & ? & ?). exists m. split; [auto|]. exists n, t. auto.
Qed.

Lemma rec_decides id log now acts : rec id (log ++ map (LDecide now) acts) = rec id log ++ map (LDecide now) acts.
Proof.
  induction acts as [|a acts IH] using rev_ind; cbn; [now rewrite !app_nil_r|].
  rewrite map_app. cbn. rewrite app_assoc, rec_snoc, IH. now rewrite app_assoc.
Qed.

Lemma filter_decides id now acts : filter (is_send id) (map (LDecide now) acts) = [].
Proof. induction acts; cbn; auto. Qed.

Lemma due_decides cf log now0 acts now a : due cf log now a -> due cf (log ++ map (LDecide now0) acts) now a.
Proof.
  apply due_ext; intros id.
  - now rewrite view_app, upd_decides.
  - rewrite rec_decides. unfold nsends. now rewrite filter_app, filter_decides, app_nil_r.
  - rewrite rec_decides, last_value_app. symmetry. apply last_value_none.
    intros o Ho. apply in_map_iff in Ho. destruct Ho as (x & <- & _). reflexivity.
Qed.

Lemma decide_entry cf w log : reachable cf w log -> forall pre now a post, log = pre ++ LDecide now a :: post ->
  due cf pre now a.
Proof.
  intros R pre now a post E.
  destruct (entry_step cf w log R _ _ _ E) as (w0 & log0 & ev & w1 & out & o1 & o2 & R0 & Hs & Ho & -> & _).
  apply reachable_agrees in R0. destruct R0 as [Hn V].
  destruct ev as [[id' st'|id' tx'|id' tx'] now'|now'| | | |i]; cbn in Hs.
  - inversion Hs; subst. destruct o1 as [|? [|]]; discriminate.
  - inversion Hs; subst. destruct o1 as [|? [|]]; discriminate.
  - inversion Hs; subst. destruct o1; discriminate.
  - destruct (w_ticker w0); try discriminate. inversion Hs; subst. destruct o1; discriminate.
  - destruct (w_ticker w0) as [|t| |]; try discriminate. inversion Hs; subst; clear Hs. rename H1 into Ho.
    assert (Hi: In (LDecide now a) (map (LDecide t) (flat_map (decide cf t) (w_acks w0))))
      by (rewrite Ho; apply in_or_app; right; now left).
    apply in_map_iff in Hi. destruct Hi as (a' & Ea & Hi). inversion Ea; subst a' t.
    apply map_eq_app in Ho. destruct Ho as (l1 & l2 & _ & <- & _).
    apply due_decides. now apply (decide_due cf now (w_acks w0)).
  - destruct (w_ticker w0) as [| |[|x rest]|]; try discriminate. inversion Hs; subst. destruct o1 as [|? [|]]; discriminate.
  - destruct (w_ticker w0) as [| | |i rest]; try discriminate. inversion Hs; subst. destruct o1 as [|? [|]]; discriminate.
  - destruct (nth_error (w_waits w0) i) as [[i' tx']|]; [|discriminate].
    destruct (wait_answer (w_acks w0) i'); inversion Hs; subst; destruct o1 as [|? [|]]; discriminate.
Qed.

(** A scan decides on every due action. *)
Lemma scan_complete cf w log now a : reachable cf w log -> w_ticker w = TScan now -> due cf log now a ->
  exists w' out, wstep cf w WScan = Some (w', out) /\ In (LDecide now a) out.
Proof.
  intros R Ht Hd. apply reachable_agrees in R. destruct R as [Hn V].
  cbn. rewrite Ht. eexists _, _. split; [reflexivity|]. apply in_map. now apply (decide_due cf now (w_acks w) log).
Qed.

(** ** What was decided is handed over, and lost messages are then forgotten *)
Definition tick_inv (w : worker) (log : list ack_log) : Prop :=
  (forall a, In a (match w_ticker w with TSend l | TForget _ l => l | _ => [] end) -> exists t, In (LDecide t a) log) /\
  (match w_ticker w with TForget id _ => exists cl log', log = log' ++ LAction (ActLost id cl) :: [] \/
      (exists mid, log = log' ++ LAction (ActLost id cl) :: mid /\ ~ In (LForget id) mid) | _ => True end) /\
  (forall a, In (LAction a) log -> exists t, In (LDecide t a) log).

Lemma tick_reachable cf w log : reachable cf w log -> tick_inv w log.
Proof.
  revert w log. apply (reachable_ind' cf tick_inv).
  - split; [intros a []|]. split; [exact I|intros a []].
  - intros w log ev w' out R (H1 & H2 & H3) Hs.
    assert (Lift: forall a, (exists t, In (LDecide t a) log) -> exists t, In (LDecide t a) (log ++ out)).
    { intros a (t & Ht). exists t. apply in_or_app; auto. }
    assert (Keep: w_ticker w' = w_ticker w -> (forall a, ~ In (LAction a) out) -> (forall i, ~ In (LForget i) out) -> tick_inv w' (log ++ out)).
    { intros Et Hna Hnf. split; [rewrite Et; auto|]. split.
      - rewrite Et. destruct (w_ticker w) as [| | |id rest]; auto. destruct H2 as (cl & log' & [->|(mid & -> & Hm)]).
        + exists cl, log'. right. exists out. rewrite <- app_assoc. split; [reflexivity|apply Hnf].
        + exists cl, log'. right. exists (mid ++ out). rewrite <- app_assoc. split; [reflexivity|].
          intros Hi. apply in_app_or in Hi. destruct Hi as [Hi|Hi]; [auto|exact (Hnf _ Hi)].
      - intros a Ha. apply in_app_or in Ha. destruct Ha as [Ha|Ha]; [auto|destruct (Hna _ Ha)]. }
    destruct ev as [[id' st'|id' tx'|id' tx'] now'|now'| | | |i]; cbn in Hs.
    + inversion Hs; subst. apply Keep; [reflexivity| |]; intros x [Hx|[]]; discriminate.
    + inversion Hs; subst. apply Keep; [reflexivity| |]; intros x [Hx|[]]; discriminate.
    + inversion Hs; subst. apply Keep; [reflexivity| |]; intros x [].
    + destruct (w_ticker w) eqn:Et; try discriminate. inversion Hs; subst. rewrite app_nil_r.
      split; [intros a []|]. split; [exact I|exact H3].
    + destruct (w_ticker w) as [|t| |] eqn:Et; try discriminate. inversion Hs; subst; clear Hs.
      set (acts := flat_map (decide cf t) (w_acks w)) in *.
      assert (HD: forall a, In a acts -> exists t0, In (LDecide t0 a) (log ++ map (LDecide t) acts)).
      { intros a Ha. exists t. apply in_or_app. right. now apply in_map. }
      split; [cbn; intros a Ha; apply HD; destruct acts; [destruct Ha|exact Ha]|].
      split; [cbn; destruct acts; exact I|].
      intros a Ha. apply in_app_or in Ha. destruct Ha as [Ha|Ha]; [auto|].
      apply in_map_iff in Ha. destruct Ha as (? & ? & _); discriminate.
    + destruct (w_ticker w) as [| |[|a rest]|] eqn:Et; try discriminate. inversion Hs; subst; clear Hs.
      split; [|split].
      * cbn. intros b Hb. apply Lift, H1. right.
        destruct a; cbn in Hb; [destruct rest; [destruct Hb|exact Hb]|exact Hb].
      * cbn. destruct a as [c i m cl|i cl]; [destruct rest; exact I|]. exists cl, log. now left.
      * intros b Hb. apply in_app_or in Hb. destruct Hb as [Hb|[Hb|[]]]; [auto|]. inversion Hb; subst.
        apply Lift, H1. now left.
    + destruct (w_ticker w) as [| | |id rest] eqn:Et; try discriminate. inversion Hs; subst; clear Hs.
      split; [|split].
      * cbn. intros b Hb. apply Lift, H1. destruct rest; [destruct Hb|exact Hb].
      * cbn. destruct rest; exact I.
      * intros b Hb. apply in_app_or in Hb. destruct Hb as [Hb|[Hb|[]]]; [auto|discriminate].
    + destruct (nth_error (w_waits w) i) as [[i' tx']|]; [|discriminate].
      destruct (wait_answer (w_acks w) i'); inversion Hs; subst.
      * apply Keep; [reflexivity| |]; intros x [Hx|[]]; discriminate.
      * apply Keep; [reflexivity| |]; intros x [].
Qed.

Lemma action_decided cf w log : reachable cf w log -> forall a, In (LAction a) log -> exists t, In (LDecide t a) log.
Proof. intros R. apply tick_reachable in R. apply R. Qed.

Lemma forget_after_lost cf w log : reachable cf w log -> forall pre id post, log = pre ++ LForget id :: post ->
  exists cl p mid, pre = p ++ LAction (ActLost id cl) :: mid /\ ~ In (LForget id) mid.
Proof.
  intros R pre id post E.
  destruct (entry_step cf w log R _ _ _ E) as (w0 & log0 & ev & w1 & out & o1 & o2 & R0 & Hs & Ho & -> & _).
  apply tick_reachable in R0. destruct R0 as (_ & H2 & _).
  destruct ev as [[id' st'|id' tx'|id' tx'] now'|now'| | | |i]; cbn in Hs.
  - inversion Hs; subst. destruct o1 as [|? [|]]; discriminate.
  - inversion Hs; subst. destruct o1 as [|? [|]]; discriminate.
  - inversion Hs; subst. destruct o1; discriminate.
  - destruct (w_ticker w0); try discriminate. inversion Hs; subst. destruct o1; discriminate.
  - destruct (w_ticker w0) as [|t| |]; try discriminate. inversion Hs; subst; clear Hs. exfalso.
    assert (Hi: In (LForget id) (map (LDecide t) (flat_map (decide cf t) (w_acks w0))))
      by (rewrite H1; apply in_or_app; right; now left).
    apply in_map_iff in Hi. destruct Hi as (? & ? & _); discriminate.
  - destruct (w_ticker w0) as [| |[|x rest]|]; try discriminate. inversion Hs; subst. destruct o1 as [|? [|]]; discriminate.
  - destruct (w_ticker w0) as [| | |i rest]; try discriminate. inversion Hs; subst.
    destruct o1 as [|? [|]]; try discriminate. inversion H1; subst. rewrite app_nil_r.
    destruct H2 as (cl & log' & [->|(mid & -> & Hm)]).
    + exists cl, log', []. split; [reflexivity|intros []].
    + exists cl, log', mid. split; [reflexivity|assumption].
  - destruct (nth_error (w_waits w0) i) as [[i' tx']|]; [|discriminate].
    destruct (wait_answer (w_acks w0) i'); inversion Hs; subst; destruct o1 as [|? [|]]; discriminate.
Qed.

(** ** C32: the bound *)
Lemma last_decide id l : (0 < ndecides id l)%nat -> exists a e b, l = a ++ e :: b /\ decides id e = true /\
  ndecides id b = O.
Proof.
  unfold ndecides. induction l as [|e l IH] using rev_ind; [cbn; lia|].
  rewrite filter_app, app_length. cbn. destruct (decides id e) eqn:E.
  - intros _. exists l, e, []. auto.
  - intros H. destruct IH as (a & x & b & -> & Hx & Hb); [cbn in H; lia|].
    exists a, x, (b ++ [e]). rewrite <- app_assoc. split; [reflexivity|]. split; [assumption|].
    rewrite filter_app, app_length. cbn. rewrite E. cbn. lia.
Qed.

Lemma ndecides_app id a b : ndecides id (a ++ b) = (ndecides id a + ndecides id b)%nat.
Proof. unfold ndecides. now rewrite filter_app, app_length. Qed.
Lemma nsends_app id a b : nsends id (a ++ b) = nsends id a + nsends id b.
Proof. unfold nsends. rewrite filter_app, app_length. lia. Qed.

Lemma prompt_counts id r : prompt id r ->
  (forall a e c, r = a ++ e :: c -> decides id e = true -> 1 <= nsends id a) ->
  forall n a e c, (length a <= n)%nat -> r = a ++ e :: c -> decides id e = true ->
    N.of_nat (ndecides id a) + 1 <= nsends id a.
Proof.
  intros Hp H1. induction n as [|n IH]; intros a e c Hl E He.
  - destruct a; [|cbn in Hl; lia]. specialize (H1 [] e c E He). cbn in H1. unfold nsends in H1. cbn in H1. lia.
  - destruct (Nat.eq_dec (ndecides id a) 0) as [H0|H0].
    + rewrite H0. specialize (H1 a e c E He). lia.
    + destruct (last_decide id a) as (a2 & e2 & b & -> & He2 & Hb); [lia|].
      rewrite <- app_assoc in E. cbn in E.
      assert (I: N.of_nat (ndecides id a2) + 1 <= nsends id a2).
      { eapply (IH a2 e2); [rewrite app_length in Hl; cbn in Hl; lia|exact E|exact He2]. }
      destruct (Hp a2 e2 b e c E He2 He) as (s & Hs & Hss).
      rewrite ndecides_app, nsends_app. cbn [ndecides]. unfold ndecides in Hb |- *. cbn [filter]. rewrite He2. cbn [length].
      rewrite Hb.
      assert (1 <= nsends id (e2 :: b)).
      { apply in_split in Hs. destruct Hs as (b1 & b2 & ->).
        change (e2 :: b1 ++ s :: b2) with ((e2 :: b1) ++ s :: b2). rewrite nsends_app.
        unfold nsends at 2. cbn. rewrite Hss. cbn [length]. lia. }
      fold (ndecides id a2). lia.
Qed.

Lemma is_decide id e : decides id e = true -> exists t c m cl, e = LDecide t (Resend c id m cl).
Proof.
  destruct e as [| |t [c i m cl|i cl]| | |]; cbn; try discriminate.
  destruct (string_dec i id) as [->|]; [eauto|discriminate].
Qed.

Lemma rec_prefix id old a : (old = [] \/ exists o, old = o ++ [LForget id]) -> ~ In (LForget id) a ->
  rec id (old ++ a) = a.
Proof. intros Ho Hn. symmetry. apply life_rec. exists old. auto. Qed.

Lemma bounded_resends cf w log id recent : reachable cf w log -> life id log recent -> prompt id recent ->
  N.of_nat (ndecides id recent) <= cf_max cf - 1.
Proof.
  intros R (old & E & Hn & Ho) Hp.
  assert (D: forall a e c, recent = a ++ e :: c -> decides id e = true -> 1 <= nsends id a /\ nsends id a < cf_max cf).
  { intros a e c Er He. destruct (is_decide id e He) as (t & c0 & m & cl & ->).
    assert (Ha: ~ In (LForget id) a) by (intros H; apply Hn; rewrite Er; apply in_or_app; auto).
    rewrite Er, app_assoc in E.
    pose proof (decide_entry cf w log R _ _ _ _ E) as (_ & _ & n & t0 & Hs & Hlt & Hls & _).
    apply sends_iff in Hs. apply last_send_iff in Hls. rewrite (rec_prefix id old a Ho Ha) in *. subst n.
    split; [|assumption]. apply last_value_assigned in Hls. destruct Hls as (p & o & q & -> & Hso & _).
    rewrite nsends_app. unfold nsends at 2. cbn.
    assert (Hx: is_send id o = true).
    { destruct (is_send id o) eqn:Ex; [reflexivity|]. apply send_time_none in Ex. congruence. }
    rewrite Hx. cbn [length]. lia. }
  destruct (Nat.eq_dec (ndecides id recent) 0) as [H0|H0]; [rewrite H0; lia|].
  destruct (last_decide id recent) as (a & e & b & Er & He & Hb); [lia|].
  assert (C: N.of_nat (ndecides id a) + 1 <= nsends id a).
  { eapply (prompt_counts id recent Hp) with (n := length a); eauto.
    intros a0 e0 c0 E0 He0. exact (proj1 (D a0 e0 c0 E0 He0)). }
  pose proof (D a e b Er He) as [_ Hlt].
  rewrite Er, ndecides_app. unfold ndecides in Hb |- *. cbn [filter]. rewrite He. cbn [length]. rewrite Hb.
  fold (ndecides id a). lia.
Qed.

(** Without prompt recording there is no bound. *)
Fixpoint rounds (T : N) (n : nat) : list worker_event :=
  match n with O => [] | S n' => WTick T :: WScan :: WSend :: rounds T n' end.

Lemma rounds_log cf id msg cl T n : 1 < cf_max cf -> cf_timeout cf < T ->
  forall log, exists w log',
    wrun cf {| w_acks := [(id, {| en_status := Pending msg cl; en_attempts := 1; en_last := Some 0 |})];
               w_ticker := TIdle; w_waits := [] |} log (rounds T n) = Some (w, log') /\
    (forall e, In e log' -> In e log \/ is_send id e = false /\ e <> LForget id) /\
    ndecides id log' = (ndecides id log + n)%nat.
Proof.
  intros Hm HT. induction n as [|n IH]; intros log.
  - eexists _, _. split; [reflexivity|]. split; [auto|lia].
  - cbn [rounds wrun wstep w_ticker w_acks w_waits flat_map decide en_status en_last en_attempts].
    rewrite N.sub_0_r, (proj2 (N.ltb_lt _ _) HT), (proj2 (N.leb_gt _ _) Hm). cbn [app map].
    rewrite app_nil_r.
    destruct (IH ((log ++ [LDecide T (Resend id id msg cl)]) ++ [LAction (Resend id id msg cl)])) as (w & log' & Hw & He & Hd).
    exists w, log'. split; [exact Hw|]. split.
    + intros e Hi. apply He in Hi. destruct Hi as [Hi|Hi]; [|now right].
      apply in_app_or in Hi. destruct Hi as [Hi|[<-|[]]]; [|right; split; [reflexivity|discriminate]].
      apply in_app_or in Hi. destruct Hi as [Hi|[<-|[]]]; [now left|right; split; [reflexivity|discriminate]].
    + rewrite Hd, !ndecides_app. unfold ndecides at 2 3. cbn. destruct (string_dec id id); [cbn; lia|congruence].
Qed.

Lemma unbounded_resends cf id msg cl n : 1 < cf_max cf ->
  exists w log, reachable cf w log /\ life id log log /\ In (LRecord id (Pending msg cl) 0) log /\ sends id log 1 /\ ndecides id log = n.
Proof.
  intros Hm.
  destruct (rounds_log cf id msg cl (cf_timeout cf + 1) n Hm ltac:(lia) [LRecord id (Pending msg cl) 0]) as (w & log & Hw & He & Hd).
  exists w, log.
  assert (R: reachable cf w log).
  { exists (WRecv (MStatus id (Pending msg cl)) 0 :: rounds (cf_timeout cf + 1) n). exact Hw. }
  assert (L: life id log log).
  { exists []. split; [reflexivity|]. split; [|now left]. intros Hi. apply He in Hi.
    destruct Hi as [[Hi|[]]|[_ Hi]]; [discriminate|congruence]. }
  split; [exact R|]. split; [exact L|].
  (* one send: the log starts with the record and holds no other send *)
  assert (P: exists r, log = LRecord id (Pending msg cl) 0 :: r /\ forall e, In e r -> is_send id e = false).
  { assert (G: forall n log w log', 
      wrun cf {| w_acks := [(id, {| en_status := Pending msg cl; en_attempts := 1; en_last := Some 0 |})];
               w_ticker := TIdle; w_waits := [] |} log (rounds (cf_timeout cf + 1) n) = Some (w, log') ->
      exists r, log' = log ++ r /\ forall e, In e r -> is_send id e = false).
    { clear - Hm. induction n as [|n0 IH]; intros log w log' H.
      - inversion H; subst. exists []. rewrite app_nil_r. split; [reflexivity|intros e []].
      - cbn [rounds wrun wstep w_ticker w_acks w_waits flat_map decide en_status en_last en_attempts] in H.
        rewrite N.sub_0_r in H. replace (cf_timeout cf <? cf_timeout cf + 1) with true in H by (symmetry; apply N.ltb_lt; lia).
        rewrite (proj2 (N.leb_gt _ _) Hm) in H. cbn [app map] in H. rewrite app_nil_r in H.
        apply IH in H. destruct H as (r & -> & Hr).
        exists ([LDecide (cf_timeout cf + 1) (Resend id id msg cl)] ++ [LAction (Resend id id msg cl)] ++ r).
        rewrite !app_assoc. split; [reflexivity|]. intros e Hi. rewrite <- !app_assoc in Hi.
        apply in_app_or in Hi. destruct Hi as [[<-|[]]|Hi]; [reflexivity|].
        apply in_app_or in Hi. destruct Hi as [[<-|[]]|Hi]; [reflexivity|auto]. }
    apply G in Hw. destruct Hw as (r & -> & Hr). exists r. auto. }
  destruct P as (r & Er & Hr). split; [rewrite Er; now left|]. split; [|cbn in Hd; exact Hd]. exists log. split; [exact L|]. rewrite Er. cbn.
  destruct (string_dec id id); [|congruence].
  replace (filter (is_send id) r) with (@nil ack_log); [reflexivity|].
  symmetry. clear - Hr. induction r as [|e r IH]; [reflexivity|]. cbn. rewrite Hr by now left. apply IH. intros; apply Hr; now right.
Qed.

(** ** C61: acknowledgement is final, when nothing was in flight *)
Lemma busy_dec id w : busy_with id w \/ ~ busy_with id w.
Proof.
  unfold busy_with. destruct (w_ticker w) as [| |l|i l]; try tauto.
  - destruct (existsb (about id) l) eqn:E.
    + left. apply existsb_exists in E. exact E.
    + right. intros H. apply existsb_exists in H. congruence.
  - destruct (string_dec i id); [auto|]. destruct (existsb (about id) l) eqn:E.
    + left. right. apply existsb_exists in E. exact E.
    + right. intros [H|H]; [congruence|]. apply existsb_exists in H. congruence.
Qed.

Lemma ack_final_step cf w log id ev w' out : reachable cf w log -> current id log Received -> ~ busy_with id w ->
  wstep cf w ev = Some (w', out) -> (forall t m cl, ~ In (LRecord id (Pending m cl) t) out) ->
  (forall t, ~ In (LRecord id Lost t) out) ->
  current id (log ++ out) Received /\ ~ busy_with id w' /\ forall e, In e out -> gives_up id e = false.
Proof.
  intros R Hc Hb Hs Hp Hl.
  assert (Keep: (forall e, In e out -> says id e = None \/ says id e = Some (Some Received)) -> current id (log ++ out) Received).
  { intros Hk. unfold current. apply last_value_assigned. rewrite last_value_app.
    apply last_value_assigned in Hc. rewrite Hc. clear - Hk.
    induction out as [|e out IH]; [reflexivity|]. cbn.
    destruct (Hk e (or_introl eq_refl)) as [-> | ->]; apply IH; intros; apply Hk; now right. }
  pose proof (reachable_agrees _ _ _ R) as [Hn V].
  destruct ev as [[id' st'|id' tx'|id' tx'] now'|now'| | | |i]; cbn in Hs.
  - inversion Hs; subst; clear Hs. split; [|split; [exact Hb|intros e [<-|[]]; reflexivity]].
    apply Keep. intros e [<-|[]]. cbn. destruct (string_dec id' id) as [->|]; [right|now left].
    destruct st' as [m cl| |]; [destruct (Hp now' m cl); now left|reflexivity|destruct (Hl now'); now left].
  - inversion Hs; subst. split; [apply Keep; intros e [<-|[]]; now left|]. split; [exact Hb|intros e [<-|[]]; reflexivity].
  - inversion Hs; subst. split; [apply Keep; intros e []|]. split; [exact Hb|intros e []].
  - destruct (w_ticker w) eqn:Et; try discriminate. inversion Hs; subst.
    split; [apply Keep; intros e []|]. split; [intros []|intros e []].
  - destruct (w_ticker w) as [|t| |] eqn:Et; try discriminate. inversion Hs; subst; clear Hs.
    assert (HA: forall a, In a (flat_map (decide cf t) (w_acks w)) -> about id a = false).
    { intros a Ha. apply (decide_due cf t (w_acks w) log) in Ha; auto.
      destruct (about id a) eqn:Eab; [|reflexivity]. exfalso.
      assert (Hcur: exists m cl, current id log (Pending m cl)).
      { destruct a as [c i m cl|i cl]; cbn in Eab, Ha; destruct (string_dec i id) as [->|]; try discriminate.
        - destruct Ha as (_ & ? & _). eauto.
        - destruct Ha as (m & ? & _). eauto. }
      destruct Hcur as (m & cl & Hcur). apply view_current in Hc, Hcur.
      destruct Hc as (e1 & V1 & S1). destruct Hcur as (e2 & V2 & S2). congruence. }
    split; [apply Keep; intros e He; apply in_map_iff in He; destruct He as (a & <- & _); now left|].
    split.
    + unfold busy_with. cbn. destruct (flat_map (decide cf t) (w_acks w)) as [|x acts] eqn:Ea; [tauto|].
      intros (a & Ha & Hab). rewrite (HA a) in Hab by (rewrite <- Ea; rewrite Ea; exact Ha). discriminate.
    + intros e He. apply in_map_iff in He. destruct He as (a & <- & Ha). cbn. auto.
  - destruct (w_ticker w) as [| |[|a rest]|] eqn:Et; try discriminate. inversion Hs; subst; clear Hs.
    unfold busy_with in Hb. rewrite Et in Hb.
    assert (Ha: about id a = false).
    { destruct (about id a) eqn:E; [|reflexivity]. destruct Hb. exists a. split; [now left|assumption]. }
    split; [apply Keep; intros e [<-|[]]; now left|]. split.
    + unfold busy_with. cbn. destruct a as [c i m cl|i cl].
      * destruct rest as [|y rest]; [tauto|]. intros (b & Hi & Hab). apply Hb. exists b. split; [now right|assumption].
      * cbn in Ha. destruct (string_dec i id); [discriminate|]. intros [?|(b & Hi & Hab)]; [congruence|].
        apply Hb. exists b. split; [now right|assumption].
    + intros e [<-|[]]. exact Ha.
  - destruct (w_ticker w) as [| | |i rest] eqn:Et; try discriminate. inversion Hs; subst; clear Hs.
    unfold busy_with in Hb. rewrite Et in Hb.
    assert (Hi: i <> id) by tauto.
    split; [apply Keep; intros e [<-|[]]; left; cbn; destruct (string_dec i id); congruence|]. split.
    + unfold busy_with. cbn. destruct rest as [|y rest]; [tauto|]. intros H. apply Hb. right. exact H.
    + intros e [<-|[]]. cbn. destruct (string_dec i id); congruence.
  - destruct (nth_error (w_waits w) i) as [[i' tx']|]; [|discriminate].
    destruct (wait_answer (w_acks w) i'); inversion Hs; subst.
    + split; [apply Keep; intros e [<-|[]]; now left|]. split; [exact Hb|intros e [<-|[]]; reflexivity].
    + split; [apply Keep; intros e []|]. split; [exact Hb|intros e []].
Qed.

Lemma wrun_log cf evs : forall w log w' log', wrun cf w log evs = Some (w', log') -> exists new, log' = log ++ new.
Proof.
  induction evs as [|ev evs IH]; intros w log w' log' H; cbn in H.
  - inversion H; subst. exists []. now rewrite app_nil_r.
  - destruct (wstep cf w ev) as [[w1 out]|]; [|discriminate]. apply IH in H. destruct H as (n & ->).
    exists (out ++ n). now rewrite app_assoc.
Qed.

Lemma ack_final cf evs : forall w log id w' new, reachable cf w log -> current id log Received -> ~ busy_with id w ->
  wrun cf w log evs = Some (w', log ++ new) ->
  (forall t st, st <> Received -> ~ In (LRecord id st t) new) ->
  current id (log ++ new) Received /\ forall e, In e new -> gives_up id e = false.
Proof.
  induction evs as [|ev evs IH]; intros w log id w' new R Hc Hb Hr Hn; cbn in Hr.
  - assert (E: log = log ++ new) by congruence. assert (new = []).
    { destruct new; [reflexivity|]. apply (f_equal (@length _)) in E. rewrite app_length in E. cbn in E. lia. }
    subst new. split; [rewrite app_nil_r; exact Hc|intros e []].
  - destruct (wstep cf w ev) as [[w1 out]|] eqn:Es; [|discriminate].
    destruct (wrun_log _ _ _ _ _ _ Hr) as (n' & E). rewrite <- app_assoc in E. apply app_inv_head in E. subst new.
    destruct (ack_final_step cf w log id ev w1 out R Hc Hb Es) as (C1 & B1 & G1).
    { intros t m cl Hi. apply (Hn t (Pending m cl)); [discriminate|]. apply in_or_app; auto. }
    { intros t Hi. apply (Hn t Lost); [discriminate|]. apply in_or_app; auto. }
    rewrite app_assoc in Hr |- *.
    destruct (IH w1 (log ++ out) id w' n' (reachable_step _ _ _ _ _ _ R Es) C1 B1 Hr) as (C2 & G2).
    { intros t st Hst Hi. apply (Hn t st Hst). apply in_or_app; auto. }
    split; [assumption|]. intros e Hi. apply in_app_or in Hi. destruct Hi; auto.
Qed.

(** ** C32: hand-over of the decided actions *)
Lemma owed_step cf w ev w' out : wstep cf w ev = Some (w', out) -> ev <> WScan ->
  filter is_hand out ++ owed w' = owed w.
Proof.
  intros Hs Hne. unfold owed.
  destruct ev as [[id' st'|id' tx'|id' tx'] now'|now'| | | |i]; cbn in Hs; try congruence.
  - inversion Hs; subst. reflexivity.
  - inversion Hs; subst. reflexivity.
  - inversion Hs; subst. reflexivity.
  - destruct (w_ticker w); try discriminate. inversion Hs; subst. reflexivity.
  - destruct (w_ticker w) as [| |[|[c i m cl|i cl] rest]|]; try discriminate; inversion Hs; subst; cbn.
    + destruct rest; reflexivity.
    + reflexivity.
  - destruct (w_ticker w) as [| | |id rest]; try discriminate. inversion Hs; subst. cbn. destruct rest; reflexivity.
  - destruct (nth_error (w_waits w) i) as [[i' tx']|]; [|discriminate].
    destruct (wait_answer (w_acks w) i'); inversion Hs; subst; reflexivity.
Qed.

Lemma owed_run cf evs : forall w log w' new, wrun cf w log evs = Some (w', log ++ new) -> ~ In WScan evs ->
  filter is_hand new ++ owed w' = owed w.
Proof.
  induction evs as [|ev evs IH]; intros w log w' new H Hn; cbn in H.
  - assert (E: log = log ++ new) by congruence. assert (new = []).
    { destruct new; [reflexivity|]. apply (f_equal (@length _)) in E. rewrite app_length in E. cbn in E. lia. }
    subst new. cbn. congruence.
  - destruct (wstep cf w ev) as [[w1 out]|] eqn:Es; [|discriminate].
    destruct (wrun_log _ _ _ _ _ _ H) as (n' & E). rewrite <- app_assoc in E. apply app_inv_head in E. subst new.
    rewrite app_assoc in H. apply IH in H; [|intros Hi; apply Hn; now right].
    rewrite filter_app, <- app_assoc, H. eapply owed_step; eauto. intros ->. apply Hn. now left.
Qed.

Lemma scan_owed cf w w' out : wstep cf w WScan = Some (w', out) ->
  exists now acts, out = map (LDecide now) acts /\ owed w' = flat_map hand acts.
Proof.
  cbn. destruct (w_ticker w) as [|t| |]; try discriminate. intros H; inversion H; subst.
  exists t, (flat_map (decide cf t) (w_acks w)). split; [reflexivity|]. unfold owed. cbn.
  destruct (flat_map (decide cf t) (w_acks w)); reflexivity.
Qed.

(** The checker is never stuck. *)
Definition busy_todo (w : worker) : Prop := w_ticker w <> TSend [].
Lemma todo_nonempty cf w log : reachable cf w log -> busy_todo w.
Proof.
  revert w log. apply (reachable_ind' cf (fun w _ => busy_todo w)); unfold busy_todo.
  - discriminate.
  - intros w log ev w' out _ IH Hs.
    destruct ev as [[id' st'|id' tx'|id' tx'] now'|now'| | | |i]; cbn in Hs.
    + inversion Hs; subst; exact IH.
    + inversion Hs; subst; exact IH.
    + inversion Hs; subst; exact IH.
    + destruct (w_ticker w); try discriminate. inversion Hs; subst. discriminate.
    + destruct (w_ticker w) as [|t| |]; try discriminate. inversion Hs; subst. cbn.
      destruct (flat_map (decide cf t) (w_acks w)); discriminate.
    + destruct (w_ticker w) as [| |[|[] rest]|]; try discriminate; inversion Hs; subst; cbn; [destruct rest|]; discriminate.
    + destruct (w_ticker w) as [| | |id rest]; try discriminate. inversion Hs; subst. cbn. destruct rest; discriminate.
    + destruct (nth_error (w_waits w) i) as [[i' tx']|]; [|discriminate].
      destruct (wait_answer (w_acks w) i'); inversion Hs; subst; exact IH.
Qed.

Lemma owed_progress cf w log : reachable cf w log -> owed w <> [] ->
  exists ev w' e, wstep cf w ev = Some (w', [e]) /\ (ev = WSend \/ ev = WForget) /\ e :: owed w' = owed w.
Proof.
  intros R Hne. apply todo_nonempty in R. unfold busy_todo in R.
  destruct (w_ticker w) as [| |[|a rest]|id rest] eqn:Et; unfold owed in Hne; rewrite Et in Hne; try congruence.
  - exists WSend. cbn. rewrite Et. eexists _, _. split; [reflexivity|]. split; [now left|].
    unfold owed. rewrite Et. cbn. destruct a; [destruct rest|]; reflexivity.
  - exists WForget. cbn. rewrite Et. eexists _, _. split; [reflexivity|]. split; [now right|].
    unfold owed. rewrite Et. cbn. destruct rest; reflexivity.
Qed.
