From Verif Require Import Base Chars CliModel CliSpec.
Local Open Scope list_scope.

(** ** Without a terminal *)
Definition lines (a : act) : list line := match a with AEvent e => [LEvent e] | AClosed => [LClosed] | _ => [] end.
(** What has happened so far *)
Definition h_inv (f : text) (tr : list act) (s : hstate) : Prop :=
  h_out s = LStart f :: flat_map lines tr /\
  match h_pc s with
  | Creating => tr = []
  | Opening => tr = [ACreate empty_document None]
  | Looping => exists tr', tr = ACreate empty_document None :: AOpen None :: tr' /\ Forall (fun a => a = AErr None \/ exists e, a = AEvent e) tr'
  | Ended o => exists a tr', tr = tr' ++ [a] /\ stops a o /\ Forall (fun a => a = ACreate empty_document None \/ a = AOpen None \/ a = AErr None \/ exists e, a = AEvent e) tr' /\ (a = AClosed -> c_stream (h_chans s) = Closed /\ exists t, tr' = ACreate empty_document None :: AOpen None :: t) /\ (forall d o, In (ACreate d o) tr -> d = empty_document)
  end.
Lemma h_invariant f tr s : hrun (h_start f) tr s -> h_inv f tr s.
Proof.
  induction 1 as [|tr s1 es s2 R [IO IP] S]; [split; reflexivity|].
  destruct S; unfold h_inv; cbn [h_pc h_out h_chans]; rewrite ?flat_map_app, IO; try rewrite H in IP; (split; [cbn; rewrite ?app_nil_r; reflexivity|]).
  - rewrite app_nil_r. destruct (h_pc s); auto. destruct IP as (a & tr' & E & St & F & Cl & D). exists a, tr'. split; [exact E|]. split; [exact St|]. split; [exact F|]. split; [|exact D]. intros Ea; destruct (Cl Ea) as [C1 C2]. split; [now apply H|exact C2].
  - now rewrite IP.
  - rewrite IP. eexists _, []. cbn. split; [reflexivity|]. split; [constructor|]. split; [constructor|]. split; [discriminate|]. now intros d o [[= <- _]|[]].
  - rewrite IP. exists []. auto.
  - rewrite IP. eexists _, [_]. cbn. split; [reflexivity|]. split; [constructor|]. split; [constructor; auto|]. split; [discriminate|]. now intros d o [[= <- _]|[[=]|[]]].
  - destruct IP as (t & -> & F). eexists _, _. split; [reflexivity|]. split; [constructor|]. split; [repeat constructor; auto; eapply Forall_impl; [|exact F]; cbn; tauto|]. split; [discriminate|]. intros d o [[= <- _]|[[=]|X]]; auto. rewrite in_app_iff in X. rewrite Forall_forall in F. destruct X as [X|[[=]|[]]]. destruct (F _ X) as [[=]|[? [=]]].
  - destruct IP as (t & -> & F). eexists _, _. split; [reflexivity|]. split; [constructor|]. split; [repeat constructor; auto; eapply Forall_impl; [|exact F]; cbn; tauto|]. split; [discriminate|]. intros d o [[= <- _]|[[=]|X]]; auto. rewrite in_app_iff in X. rewrite Forall_forall in F. destruct X as [X|[[=]|[]]]. destruct (F _ X) as [[=]|[? [=]]].
  - destruct IP as (t & -> & F). exists (t ++ [AErr None]). split; [reflexivity|]. apply Forall_app. auto.
  - rewrite H. destruct IP as (t & -> & F). exists (t ++ [AErr None]). split; [reflexivity|]. apply Forall_app. auto.
  - destruct IP as (t & -> & F). eexists _, _. split; [reflexivity|]. split; [constructor|]. split; [repeat constructor; auto; eapply Forall_impl; [|exact F]; cbn; tauto|]. split; [split; [assumption|eauto]|]. intros d o [[= <- _]|[[=]|X]]; auto. rewrite in_app_iff in X. rewrite Forall_forall in F. destruct X as [X|[[=]|[]]]. destruct (F _ X) as [[=]|[? [=]]].
  - destruct IP as (t & -> & F). exists (t ++ [AEvent e]). split; [reflexivity|]. apply Forall_app. eauto.
Qed.
Lemma hrun_app s a s1 b s2 : hrun s a s1 -> hrun s1 b s2 -> hrun s (a ++ b) s2.
Proof. intros R. induction 1 as [|b s2 es s3 R2 IH S]; [now rewrite app_nil_r|]. rewrite app_assoc. econstructor; eauto. Qed.

(** ** In a terminal *)
Lemma viewing_app start a b : viewing start (a ++ b) = viewing (viewing start a) b.
Proof. revert start. induction a as [|[| | | |[]] a IH]; intros start; cbn; auto. Qed.
Lemma out_of_in {A} (a : A) l l' : out_of a l l' -> In a l.
Proof. intros (u & v & -> & _). apply in_elt. Qed.
Lemma out_of_sub {A} (a x : A) l l' : out_of a l l' -> In x l' -> In x l.
Proof. intros (u & v & -> & ->). rewrite !in_app_iff. cbn. tauto. Qed.

Definition is_start (c : cmd) : bool := match c with CStart _ => true | _ => false end.
Definition is_wait (c : cmd) : bool := match c with CWait => true | _ => false end.
Definition count {A} (f : A -> bool) (l : list A) : nat := length (filter f l).
Lemma count_app {A} (f : A -> bool) l l' : count f (l ++ l') = count f l + count f l'.
Proof. unfold count. now rewrite filter_app, app_length. Qed.
Lemma count_out {A} (f : A -> bool) a l l' : out_of a l l' -> count f l = (if f a then 1 else 0) + count f l'.
Proof. intros (u & v & -> & ->). rewrite !count_app. unfold count at 2. cbn. destruct (f a); cbn; unfold count; lia. Qed.
(** The results that wait *)
Definition waiting (l : list msg) : list event := flat_map (fun x => match x with MResult e => [e] | _ => [] end) l.
Lemma waiting_app l l' : waiting (l ++ l') = waiting l ++ waiting l'.
Proof. apply flat_map_app. Qed.
Lemma waiting_out x l l' : out_of x l l' -> (forall e, x <> MResult e) -> waiting l' = waiting l.
Proof. intros (u & v & -> & ->) N. rewrite !waiting_app. f_equal. destruct x; try reflexivity. now elim (N e). Qed.
Lemma waiting_one e l l' : out_of (MResult e) l l' -> length (waiting l) <= 1 -> waiting l = [e] /\ waiting l' = [].
Proof. intros (u & v & -> & ->). rewrite !waiting_app, app_length. change (waiting (MResult e :: v)) with (e :: waiting v). cbn [length]. destruct (waiting u), (waiting v); cbn; intros L; try lia. split; reflexivity. Qed.

Definition streaming (s : ostate) : bool := v_streaming (m_validate (o_model s)).
Definition collected (s : ostate) : list event := v_collected (m_validate (o_model s)).
Definition o_inv (start : bool) (tr : list obs) (s : ostate) : Prop :=
  m_view (o_model s) = viewing start tr /\
  (streaming s = true -> viewing start tr = false -> In (OMsg MClear) tr) /\
  count is_start (o_cmds s) + length (creations tr) <= (if streaming s then 1 else 0) /\
  count is_wait (o_cmds s) + length (waiting (o_inbox s)) <= (if streaming s then 1 else 0) /\
  (exists rest, handed tr = collected s ++ rest /\ (rest = waiting (o_inbox s) \/ count is_wait (o_cmds s) = 0 /\ waiting (o_inbox s) = [] /\ streaming s = true /\ In (OMsg MClear) tr)) /\
  v_finished (m_validate (o_model s)) = false /\
  v_err (m_validate (o_model s)) = m_error (o_model s).
Lemma handed_app a b : handed (a ++ b) = handed a ++ handed b.
Proof. apply flat_map_app. Qed.
Lemma creations_app a b : creations (a ++ b) = creations a ++ creations b.
Proof. apply flat_map_app. Qed.
Lemma o_invariant f d tr s : orun (o_start f d) tr s -> o_inv (m_view (o_model (o_start f d))) tr s.
Proof.
  set (st := m_view (o_model (o_start f d))).
  induction 1 as [|tr s1 es s2 R (I1 & I2 & I3 & I4 & (rest & I5 & I6) & I7 & I8) S].
  { unfold o_inv. split; [reflexivity|]. split; [discriminate|]. unfold o_start. destruct f as [|c f]; [|destruct d]; cbn; repeat split; auto; exists []; auto. }
  clearbody st. assert (Mono : In (OMsg MClear) tr -> In (OMsg MClear) (tr ++ es)) by (intros X; apply in_or_app; now left).
  destruct S; unfold o_inv; rewrite viewing_app, handed_app, creations_app, app_length; unfold send, streaming, collected in *; cbn [o_model o_cmds o_inbox o_chans o_over].
  all: rewrite ?waiting_app, ?app_length.
  - cbn. rewrite !app_nil_r, Nat.add_0_r. repeat split; auto. exists rest. auto.
  - assert (W : waiting [x] = []) by (destruct H as [[<- | [<- | []]]|[-> |[g ->]]]; reflexivity). rewrite W. cbn. rewrite !app_nil_r, !Nat.add_0_r. repeat split; auto. exists rest. auto.
  - rewrite (count_out is_start _ _ _ H) in I3. rewrite (count_out is_wait _ _ _ H) in I4, I6. cbn in *. rewrite !app_nil_r, !Nat.add_0_r in *. repeat split; auto. exists rest. auto.
  - rewrite (count_out is_start _ _ _ H) in I3. rewrite (count_out is_wait _ _ _ H) in I4, I6. cbn in *. rewrite !app_nil_r, !Nat.add_0_r in *. repeat split; auto. exists rest. auto.
  - rewrite (count_out is_start _ _ _ H) in I3. rewrite (count_out is_wait _ _ _ H) in I4, I6. cbn in *. rewrite !app_nil_r, !Nat.add_0_r in *. repeat split; auto. exists rest. auto.
  - rewrite (count_out is_start _ _ _ H) in I3. rewrite (count_out is_wait _ _ _ H) in I4, I6. cbn in *. rewrite !app_nil_r, ?Nat.add_0_r in *. repeat split; auto; [lia|]. exists rest. split; [exact I5|]. destruct I6 as [?|(? & ? & ? & ?)]; auto 6.
  - rewrite (count_out is_start _ _ _ H) in I3. rewrite (count_out is_wait _ _ _ H) in I4, I6. cbn in *. rewrite !app_nil_r, ?Nat.add_0_r in *. repeat split; auto; [lia|]. exists rest. split; [exact I5|]. destruct I6 as [?|(? & ? & ? & ?)]; auto 6.
  - rewrite (count_out is_start _ _ _ H) in I3. rewrite (count_out is_wait _ _ _ H) in I4, I6. cbn in *. rewrite !app_nil_r, ?Nat.add_0_r in *. repeat split; auto; [lia|]. exists rest. split; [exact I5|]. destruct I6 as [?|(? & ? & ? & ?)]; auto 6.
  - rewrite (count_out is_start _ _ _ H) in I3. rewrite (count_out is_wait _ _ _ H) in I4, I6. cbn in *. rewrite ?Nat.add_0_r in *. repeat split; auto; [lia|]. exists (rest ++ [e]). rewrite I5, app_assoc. split; [reflexivity|]. left. destruct I6 as [-> |[? _]]; [reflexivity|discriminate].
  - rewrite (count_out is_start _ _ _ H) in I3. rewrite (count_out is_wait _ _ _ H) in I4, I6. cbn in *. rewrite !app_nil_r, !Nat.add_0_r in *. repeat split; auto. exists rest. auto.
  - rewrite (count_out is_start _ _ _ H) in I3. rewrite (count_out is_wait _ _ _ H) in I4, I6. cbn in *. rewrite !app_nil_r, !Nat.add_0_r in *. repeat split; auto. exists rest. split; [exact I5|]. destruct I6 as [?|(? & ? & ? & ?)]; auto 6.
  - rewrite (waiting_out _ _ _ H0) by discriminate. cbn. rewrite !app_nil_r, !Nat.add_0_r. repeat split; auto. exists rest. split; [exact I5|]. destruct I6 as [?|(? & ? & ? & ?)]; auto 6.
  - assert (Q : forall y, x = y -> (forall e, y <> MResult e) -> waiting ms = waiting (o_inbox s)) by (intros y <- Ny; now apply waiting_out with (x := x)).
    rewrite !count_app. cbn [handed creations flat_map app length]. rewrite app_nil_r, Nat.add_0_r.
    destruct x as [g| |e|[e|]| |g| | |].
    + rewrite (Q _ eq_refl) by discriminate. unfold update, after_view, v_update in H2. cbn [v_streaming m_validate m_view m_file m_error v_err v_file v_collected v_finished app] in H2. injection H2 as <- <-. cbn.
      destruct (v_streaming (m_validate (o_model s))); cbn.
      * rewrite !Nat.add_0_r. split; [reflexivity|]. split; [discriminate|]. split; [exact I3|]. split; [exact I4|]. split; [exists rest; split; [exact I5|]; destruct I6 as [?|(? & ? & ? & ?)]; auto 6|]. split; [exact I7|]. rewrite I8. now destruct (m_error (o_model s)).
      * split; [reflexivity|]. split; [discriminate|]. split; [unfold count in *; cbn; lia|]. split; [unfold count in *; cbn; lia|]. split; [exists rest; split; [exact I5|]; left; destruct I6 as [?|(? & ? & ? & ?)]; [congruence|discriminate]|]. split; [exact I7|rewrite I8; now destruct (m_error (o_model s))].
    + rewrite (Q _ eq_refl) by discriminate. cbn in H2. injection H2 as <- <-. cbn. rewrite !Nat.add_0_r. split; [reflexivity|]. split; [intros _ _; apply in_or_app; right; now left|]. repeat split; auto. exists rest. split; [exact I5|]. destruct I6 as [?|(? & ? & ? & ?)]; auto 6.
    + assert (St : v_streaming (m_validate (o_model s)) = true).
      { destruct (v_streaming (m_validate (o_model s))); [reflexivity|]. destruct H0 as (u & v & E & _). rewrite E, waiting_app, app_length in I4. cbn in I4. lia. }
      rewrite St in *. destruct (waiting_one e _ _ H0) as [W1 W2]; [lia|]. rewrite W1 in *. rewrite W2. cbn in I4. assert (Z : count is_wait (o_cmds s) = 0) by lia.
      assert (E6 : rest = [e]) by (destruct I6 as [?|(_ & ? & _)]; [assumption|discriminate]). subst rest. cbn in H2. destruct (m_view (o_model s)) eqn:V; injection H2 as <- <-; cbn.
      * rewrite <- I1, St. split; [reflexivity|]. split; [discriminate|]. split; [unfold count in *; cbn; lia|]. split; [unfold count in *; cbn; lia|]. split; [exists []; split; [rewrite app_nil_r; exact I5|now left]|]. split; [exact I7|rewrite I8; now destruct (m_error (o_model s))].
      * rewrite <- I1, St, V. rewrite !Nat.add_0_r. split; [reflexivity|]. split; [intros _ _; apply Mono; now apply I2|]. split; [exact I3|]. split; [unfold count in *; cbn; lia|]. split; [exists [e]; split; [exact I5|]; right; repeat split; auto; apply Mono; now apply I2|]. auto.
    + rewrite (Q _ eq_refl) by discriminate. cbn in H2. destruct (m_view (o_model s)) eqn:V; injection H2 as <- <-; cbn; rewrite <- I1, ?V, !Nat.add_0_r; (split; [reflexivity|]); (split; [try discriminate; intros X Y; apply Mono; now apply I2|]); repeat split; auto; exists rest; (split; [exact I5|]); destruct I6 as [?|(? & ? & ? & ?)]; auto 6.
    + rewrite (Q _ eq_refl) by discriminate. cbn in H2. destruct (m_view (o_model s)) eqn:V; injection H2 as <- <-; cbn; rewrite <- I1, ?V, !Nat.add_0_r; (split; [reflexivity|]); (split; [try discriminate; intros X Y; apply Mono; now apply I2|]); repeat split; auto; try (rewrite I8; now destruct (m_error (o_model s))); exists rest; (split; [exact I5|]); destruct I6 as [?|(? & ? & ? & ?)]; auto 6.
    + contradiction.
    + rewrite (Q _ eq_refl) by discriminate. cbn in H2. destruct (m_view (o_model s)) eqn:V; injection H2 as <- <-; cbn; rewrite <- I1, ?V, !Nat.add_0_r; (split; [reflexivity|]); (split; [try discriminate; intros X Y; apply Mono; now apply I2|]); repeat split; auto; try (rewrite I8; now destruct (m_error (o_model s))); exists rest; (split; [exact I5|]); destruct I6 as [?|(? & ? & ? & ?)]; auto 6.
    + rewrite (Q _ eq_refl) by discriminate. cbn in H2. destruct (m_view (o_model s)) eqn:V; injection H2 as <- <-; cbn; rewrite <- I1, ?V, !Nat.add_0_r; (split; [reflexivity|]); (split; [try discriminate; intros X Y; apply Mono; now apply I2|]); repeat split; auto; try (rewrite I8; now destruct (m_error (o_model s))); exists rest; (split; [exact I5|]); destruct I6 as [?|(? & ? & ? & ?)]; auto 6.
    + rewrite (Q _ eq_refl) by discriminate. cbn in H2. destruct (m_view (o_model s)) eqn:V; injection H2 as <- <-; cbn; rewrite <- I1, ?V, !Nat.add_0_r; (split; [reflexivity|]); (split; [try discriminate; intros X Y; apply Mono; now apply I2|]); repeat split; auto; try (rewrite I8; now destruct (m_error (o_model s))); exists rest; (split; [exact I5|]); destruct I6 as [?|(? & ? & ? & ?)]; auto 6.
    + rewrite (Q _ eq_refl) by discriminate. cbn in H2. destruct (m_view (o_model s)) eqn:V; injection H2 as <- <-; cbn; rewrite <- I1, ?V, !Nat.add_0_r; (split; [reflexivity|]); (split; [try discriminate; intros X Y; apply Mono; now apply I2|]); repeat split; auto; try (rewrite I8; now destruct (m_error (o_model s))); exists rest; (split; [exact I5|]); destruct I6 as [?|(? & ? & ? & ?)]; auto 6.
Qed.

Lemma split_app {A} (t u a b : list A) x : t ++ u = a ++ x :: b -> (exists c, t = a ++ x :: c /\ b = c ++ u) \/ (exists c, a = t ++ c /\ u = c ++ x :: b).
Proof.
  revert a. induction t as [|y t IH]; intros a E; cbn in E; [right; exists a; auto|]. destruct a as [|z a]; cbn in E; injection E as -> E.
  - left. exists t. auto.
  - destruct (IH a E) as [(c & -> & ->)|(c & -> & ->)]; [left|right]; exists c; auto.
Qed.
Lemma error_seen_app st tr es e : error_seen st (tr ++ es) e <-> error_seen st tr e \/ exists a b, es = a ++ OMsg (MErr (Some e)) :: b /\ viewing st (tr ++ a) = true.
Proof.
  split.
  - intros (a & b & E & V). apply split_app in E. destruct E as [(c & -> & ->)|(c & -> & ->)]; [left; exists a, c; auto|right; eauto].
  - intros [(a & b & -> & V)|(a & b & -> & V)]; [exists a, (b ++ es); rewrite <- app_assoc; auto|exists (tr ++ a), b; rewrite <- app_assoc; auto].
Qed.
Lemma update_error m x m' cs : update m x = (m', cs) -> v_err (m_validate m) = m_error m ->
  m_error m' = match x with MErr (Some e) => if m_view m then Some e else m_error m | _ => m_error m end.
Proof.
  intros U E. destruct x as [g| |e|[e|]| |g| | |]; cbn in U; [|injection U as <- <-; reflexivity|..]; try (destruct (m_view m); injection U as <- <-; cbn; rewrite ?E; try destruct (m_error m); reflexivity).
Qed.
Lemma no_error_seen st tr es e : (forall x, ~ In (OMsg x) es) -> error_seen st (tr ++ es) e <-> error_seen st tr e.
Proof. intros N. rewrite error_seen_app. split; [|auto]. intros [H|(a & b & -> & _)]; [exact H|]. elim (N (MErr (Some e))). apply in_elt. Qed.
Lemma errors f d tr s : orun (o_start f d) tr s -> (forall e, m_error (o_model s) = Some e -> error_seen (m_view (o_model (o_start f d))) tr e) /\
  (forall e, error_seen (m_view (o_model (o_start f d))) tr e -> m_error (o_model s) <> None).
Proof.
  set (st := m_view (o_model (o_start f d))).
  induction 1 as [|tr s1 es s2 R [I1 I2] S].
  { split; [intros e; unfold o_start; cbn; discriminate|intros e (a & b & E & _); destruct a; discriminate E]. }
  assert (J := o_invariant _ _ _ _ R). destruct J as (J1 & _ & _ & _ & _ & _ & J8). fold st in J1. clearbody st.
  assert (K : (forall x, ~ In (OMsg x) es) -> o_model s2 = o_model s1 -> (forall e, m_error (o_model s2) = Some e -> error_seen st (tr ++ es) e) /\ (forall e, error_seen st (tr ++ es) e -> m_error (o_model s2) <> None)).
  { intros N ->. split; intros e; (rewrite no_error_seen by exact N); [apply I1|apply I2]. }
  destruct S; try (apply K; [intros y Y; cbn in Y; intuition discriminate|reflexivity]).
  - split; intros e0; rewrite error_seen_app.
    + intros X. left. now apply I1.
    + intros [X|(a & b & E & _)]; [now apply I2 in X|]. destruct a as [|? [|]]; discriminate E.
  - cbn [o_model]. pose proof (update_error _ _ _ _ H2 J8) as E. split; intros e0; rewrite error_seen_app.
    + intros X. rewrite X in E. destruct x as [g| |e|[e|]| |g| | |]; try (left; apply I1; congruence). destruct (m_view (o_model s)) eqn:V; [|left; apply I1; congruence]. injection E as <-. right. exists [], []. rewrite app_nil_r. auto.
    + intros [X|(a & b & Ea & V)].
      * apply I2 in X. rewrite E. destruct x as [g| |e|[e|]| |g| | |]; auto. destruct (m_view (o_model s)); [discriminate|auto].
      * destruct a as [|? [|]]; try discriminate Ea. injection Ea as -> _. rewrite app_nil_r in V. rewrite E, J1, V. discriminate.
Qed.
(** Messages are not lost on the way. *)
Lemma transit s0 tr s : orun s0 tr s -> o_inbox s0 = [] -> forall e, (In (OErr (Some e)) tr \/ In (OOpen (Some e)) tr \/ exists d e', In (OCreate d (Some e')) tr /\ e = reported e') -> In (MErr (Some e)) (o_inbox s) \/ In (OMsg (MErr (Some e))) tr.
Proof.
  induction 1 as [|tr s1 es s2 R IH S]; intros E0 e H; [destruct H as [[]|[[]|(d & e' & [] & _)]]|].
  assert (K : (forall x, In x (o_inbox s1) -> In x (o_inbox s2) \/ In (OMsg x) es)).
  { intros x X. destruct S; cbn [o_inbox send]; try (left; apply in_or_app; now left); try (now left).
    - destruct H1 as (u & v & E & ->). rewrite E in X. rewrite in_app_iff in *. cbn in *. intuition congruence.
    - destruct H1 as (u & v & E & ->). rewrite E in X. rewrite in_app_iff in *. cbn in *. intuition congruence. }
  assert (G : (In (OErr (Some e)) tr \/ In (OOpen (Some e)) tr \/ exists d e', In (OCreate d (Some e')) tr /\ e = reported e') -> In (MErr (Some e)) (o_inbox s2) \/ In (OMsg (MErr (Some e))) (tr ++ es)).
  { intros X. destruct (IH E0 e X) as [Y|Y]; rewrite in_app_iff; [|auto]. destruct (K _ Y); auto. }
  assert (Z : (In (OErr (Some e)) es \/ In (OOpen (Some e)) es \/ exists d e', In (OCreate d (Some e')) es /\ e = reported e') -> In (MErr (Some e)) (o_inbox s2)).
  { clear - S. intros X. destruct S; cbn [o_inbox send]; rewrite ?in_app_iff; destruct X as [X|[X|(d & e' & X & ->)]]; cbn in X; repeat (destruct X as [X|X]; try discriminate X; try (match type of X with _ = _ => inversion X; subst; clear X end)); try contradiction; try (right; now left). }
  setoid_rewrite in_app_iff in H. destruct H as [[H|H]|[[H|H]|(d & e' & [H|H] & ->)]]; eauto 8.
Qed.
Lemma over f d tr s : orun (o_start f d) tr s -> (o_over s = true \/ In MQuit (o_inbox s) \/ In CQuit (o_cmds s)) -> In MQuitKey (o_inbox s) \/ In (OMsg MQuitKey) tr \/ exists e, error_seen (m_view (o_model (o_start f d))) tr e.
Proof.
  set (st := m_view (o_model (o_start f d))).
  induction 1 as [|tr s1 es s2 R IH S]; intros H.
  { unfold o_start in H. destruct f as [|c f]; [|destruct d]; cbn in H; intuition discriminate. }
  assert (J := o_invariant _ _ _ _ R). destruct J as (J1 & _). fold st in J1. clearbody st.
  assert (K : (o_over s1 = true \/ In MQuit (o_inbox s1) \/ In CQuit (o_cmds s1)) -> (forall x, In x (o_inbox s1) -> In x (o_inbox s2) \/ In (OMsg x) es) -> In MQuitKey (o_inbox s2) \/ In (OMsg MQuitKey) (tr ++ es) \/ exists e, error_seen st (tr ++ es) e).
  { intros X N. destruct (IH X) as [Y|[Y|[e Y]]]; rewrite ?in_app_iff; [destruct (N _ Y); auto|auto|]. right. right. exists e. apply error_seen_app. now left. }
  destruct S; cbn [o_over o_inbox o_cmds send] in H.
  all: rewrite ?in_app_iff in H.
  - apply K; [tauto|cbn; auto].
  - apply K; [|cbn; setoid_rewrite in_app_iff; auto]. destruct H as [H|[[H|[-> |[]]]|H]]; auto. exfalso. destruct H0 as [[X|[X|[]]]|[X|[g X]]]; discriminate X.
  - apply K; [|cbn; setoid_rewrite in_app_iff; auto]. cbn in H. intuition (try discriminate; eauto using out_of_sub).
  - apply K; [|cbn; setoid_rewrite in_app_iff; auto]. cbn in H. intuition (try discriminate; eauto using out_of_sub).
  - apply K; [|cbn; setoid_rewrite in_app_iff; auto]. right. right. eauto using out_of_in.
  - apply K; [|cbn; setoid_rewrite in_app_iff; auto]. cbn in H. intuition (try discriminate; eauto using out_of_sub).
  - apply K; [|cbn; setoid_rewrite in_app_iff; auto]. cbn in H. intuition (try discriminate; eauto using out_of_sub).
  - apply K; [|cbn; setoid_rewrite in_app_iff; auto]. cbn in H. intuition (try discriminate; eauto using out_of_sub).
  - apply K; [|cbn; setoid_rewrite in_app_iff; auto]. cbn in H. intuition (try discriminate; eauto using out_of_sub).
  - apply K; [|cbn; setoid_rewrite in_app_iff; auto]. cbn in H. intuition (try discriminate; eauto using out_of_sub).
  - apply K; [|cbn; setoid_rewrite in_app_iff; auto]. cbn in H. intuition (try discriminate; eauto using out_of_sub).
  - apply K; [right; left; eauto using out_of_in|]. intros x X. cbn. destruct H1 as (u & v & E & ->). rewrite E in X. rewrite in_app_iff in *. cbn in *. intuition congruence.
  - assert (N : forall y, In y (o_inbox s) -> In y (o_inbox (mk_o m (o_cmds s ++ cs) ms (o_chans s) false)) \/ In (OMsg y) [OMsg x]).
    { intros y Y. cbn. destruct H1 as (u & v & E & ->). rewrite E in Y. rewrite in_app_iff in *. cbn in *. intuition congruence. }
    destruct H as [H|[H|[H|H]]]; [discriminate|apply K; [right; left; eauto using out_of_sub|exact N]|apply K; [auto|exact N]|].
    right. rewrite in_app_iff. destruct x as [g| |e|[e|]| |g| | |]; cbn in H3.
    + injection H3 as <- <-. destruct (v_streaming (m_validate (o_model s))); cbn in H; intuition discriminate.
    + injection H3 as <- <-. destruct H.
    + destruct (m_view (o_model s)); injection H3 as <- <-; cbn in H; intuition discriminate.
    + destruct (m_view (o_model s)) eqn:V; injection H3 as <- <-; cbn in H; [|contradiction]. right. exists e. apply error_seen_app. right. exists [], []. rewrite app_nil_r. split; [reflexivity|congruence].
    + destruct (m_view (o_model s)); injection H3 as <- <-; cbn in H; intuition discriminate.
    + contradiction.
    + destruct (m_view (o_model s)); injection H3 as <- <-; cbn in H; intuition discriminate.
    + destruct (m_view (o_model s)); injection H3 as <- <-; cbn in H; intuition discriminate.
    + left. right. now left.
    + destruct (m_view (o_model s)); injection H3 as <- <-; cbn in H; intuition discriminate.
Qed.

(** The file of the first selection *)
Definition first_select (tr : list obs) (f : text) : Prop := exists a b, tr = a ++ OMsg (MSelect f) :: b /\ no_select a.
Lemma first_mono tr es f : first_select tr f -> first_select (tr ++ es) f.
Proof. intros (a & b & -> & N). exists a, (b ++ es). rewrite <- app_assoc. auto. Qed.
Lemma first_one tr f g : first_select tr f -> first_select tr g -> f = g.
Proof.
  intros (a & b & E & N) (a' & b' & E' & N'). rewrite E in E'. apply split_app in E'. destruct E' as [(c & -> & _)|(c & -> & E')].
  - elim (N g). apply in_elt.
  - destruct c as [|? c]; cbn in E'; [congruence|]. injection E' as <- _. elim (N' f). apply in_elt.
Qed.
Lemma validated f d tr s : orun (o_start f d) tr s -> (streaming s = false -> no_select tr) /\ (forall g, In (CStart g) (o_cmds s) -> first_select tr g) /\ (forall dc o, In (OCreate dc o) tr -> exists g, first_select tr g /\ dc = file_document g).
Proof.
  induction 1 as [|tr s1 es s2 R (I1 & I2 & I3) S].
  { split; [intros _ g []|]. split; [|intros ? ? []]. intros g. unfold o_start. destruct f as [|c f]; [|destruct d]; cbn; intuition discriminate. }
  assert (K : (forall x, ~ In (OMsg x) es) -> o_model s2 = o_model s1 -> (forall g, In (CStart g) (o_cmds s2) -> In (CStart g) (o_cmds s1)) -> (forall dc o, In (OCreate dc o) es -> exists g, In (CStart g) (o_cmds s1) /\ dc = file_document g) ->
    (streaming s2 = false -> no_select (tr ++ es)) /\ (forall g, In (CStart g) (o_cmds s2) -> first_select (tr ++ es) g) /\ (forall dc o, In (OCreate dc o) (tr ++ es) -> exists g, first_select (tr ++ es) g /\ dc = file_document g)).
  { intros N M C D. unfold streaming. rewrite M. split; [intros X g; rewrite in_app_iff; intros [Y|Y]; [now apply (I1 X g)|now apply N in Y]|]. split; [intros g G; apply first_mono; auto|].
    intros dc o. rewrite in_app_iff. intros [Y|Y]; [destruct (I3 _ _ Y) as (g & G & ->)|destruct (D _ _ Y) as (g & G & ->)]; exists g; auto using first_mono. }
  destruct S; try (apply K; [intros y Y; cbn in Y; intuition discriminate|reflexivity|cbn; eauto using out_of_sub|intros dc o0 Y; cbn in Y; repeat (destruct Y as [Y|Y]; try discriminate Y); try contradiction; inversion Y; subst; eauto using out_of_in]).
  - cbn [o_model o_cmds]. unfold streaming in *. cbn [o_model]. split; [intros X g; rewrite in_app_iff; intros [Y|[[=]|[]]]; now apply (I1 X g)|]. split; [intros g G; apply first_mono; auto|]. intros dc o0. rewrite in_app_iff. intros [Y|[[=]|[]]]. destruct (I3 _ _ Y) as (g & G & ->). eauto using first_mono.
  - cbn [o_model o_cmds]. assert (T : forall dc o, In (OCreate dc o) (tr ++ [OMsg x]) -> exists g, first_select (tr ++ [OMsg x]) g /\ dc = file_document g).
    { intros dc o0. rewrite in_app_iff. intros [Y|[[=]|[]]]. destruct (I3 _ _ Y) as (g & G & ->). eauto using first_mono. }
    assert (L : (forall g, x <> MSelect g) -> (forall g, ~ In (CStart g) cs) /\ v_streaming (m_validate m) = v_streaming (m_validate (o_model s))).
    { intros N. destruct x as [g| |e|[e|]| |g| | |]; [now elim (N g)|..]; cbn in H2; try (destruct (m_view (o_model s))); injection H2 as <- <-; split; try reflexivity; intros g0 G; cbn in G; intuition discriminate. }
    assert (B : (exists g, x = MSelect g) \/ (forall g, x <> MSelect g)) by (destruct x; eauto; right; discriminate). destruct B as [[g ->]|N].
    + unfold update, after_view, v_update in H2. cbn [v_streaming m_validate m_view m_file m_error v_err v_file v_collected v_finished app] in H2. injection H2 as <- <-. unfold streaming in *. cbn. split; [discriminate|]. split; [|exact T]. intros h. rewrite !in_app_iff. intros [Y|[Y|Y]]; [apply first_mono; auto| |].
      2: destruct Y.
      destruct (v_streaming (m_validate (o_model s))); [destruct Y|]. destruct Y as [[= <-]|[Y|[Y|[]]]]; try discriminate. exists tr, []. auto.
    + destruct (L N) as [L1 L2]. unfold streaming in *. cbn. rewrite L2. split; [intros X h; rewrite in_app_iff; intros [Y|[[= ->]|[]]]; [now apply (I1 X h)|now elim (N h)]|]. split; [|exact T]. intros h. rewrite in_app_iff. intros [Y|Y]; [apply first_mono; auto|now elim (L1 h)].
Qed.
(** The file that is shown *)
Fixpoint last_file (f : text) (tr : list obs) : text :=
  match tr with
  | [] => f
  | OMsg (MSelect g) :: tr' => last_file g tr'
  | OMsg MClear :: tr' => last_file [] tr'
  | _ :: tr' => last_file f tr'
  end.
Lemma last_file_app f a b : last_file f (a ++ b) = last_file (last_file f a) b.
Proof. revert f. induction a as [|[| | | |[]] a IH]; intros f1; cbn; auto. Qed.
Lemma last_file_quiet f tr : no_select tr -> no_clear tr -> last_file f tr = f.
Proof.
  revert f. induction tr as [|o tr IH]; intros f1 N C; [reflexivity|]. assert (N' : no_select tr) by (intros g G; apply (N g); now right). assert (C' : no_clear tr) by (intros G; apply C; now right).
  destruct o as [| | | |[g| | | | | | | |]]; cbn; auto; [elim (N g); now left|elim C; now left].
Qed.
Lemma shown s0 tr s : orun s0 tr s -> m_file (o_model s) = last_file (m_file (o_model s0)) tr.
Proof.
  induction 1 as [|tr s1 es s2 R IH S]; [reflexivity|]. rewrite last_file_app, <- IH. destruct S; try reflexivity. cbn [o_model].
  destruct x as [g| |e|[e|]| |g| | |]; cbn in H2; try (destruct (m_view (o_model s))); injection H2 as <- <-; reflexivity.
Qed.
(** Nobody looks for errors. *)
Lemma late s tr s' : orun s tr s' -> streaming s = true -> ~ In CCheck (o_cmds s) -> waiting (o_inbox s) = [] -> handed tr = [] ->
  (forall o, ~ In (OErr o) tr) /\ streaming s' = true /\ ~ In CCheck (o_cmds s') /\ waiting (o_inbox s') = [].
Proof.
  induction 1 as [|tr s1 es s2 R IH S]; intros A B C D; [auto|]. rewrite handed_app in D. apply app_eq_nil in D. destruct D as [D1 D2]. destruct (IH A B C D1) as (I1 & I2 & I3 & I4). clear IH A B C D1. setoid_rewrite in_app_iff.
  assert (K : (forall o, ~ In (OErr o) es) -> (forall o, ~ (In (OErr o) tr \/ In (OErr o) es))) by (intros X o [Y|Y]; [now apply I1 in Y|now apply X in Y]).
  destruct S; cbn [o_model o_cmds o_inbox send]; unfold streaming in *; cbn [o_model send] in *; rewrite ?waiting_app, ?I4; try (split; [apply K; intros z Z; cbn in Z; intuition discriminate|]); auto.
  - split; [exact I2|]. split; [exact I3|]. destruct H as [[<- | [<- | []]]|[-> |[g ->]]]; reflexivity.
  - split; [exact I2|]. split; [eauto using out_of_sub|reflexivity].
  - split; [exact I2|]. split; [eauto using out_of_sub|reflexivity].
  - split; [exact I2|]. split; [eauto using out_of_sub|reflexivity].
  - split; [exact I2|]. split; [eauto using out_of_sub|reflexivity].
  - split; [exact I2|]. split; [eauto using out_of_sub|reflexivity].
  - split; [exact I2|]. split; [eauto using out_of_sub|reflexivity].
  - discriminate D2.
  - elim I3. eauto using out_of_in.
  - elim I3. eauto using out_of_in.
  - split; [exact I2|]. split; [exact I3|]. rewrite (waiting_out _ _ _ H0); [exact I4|discriminate].
  - assert (N : forall e, x <> MResult e). { intros e ->. destruct H0 as (u & v & E & _). rewrite E, waiting_app in I4. apply app_eq_nil in I4. destruct I4 as [_ X]. discriminate X. }
    rewrite (waiting_out _ _ _ H0 N), I4. rewrite in_app_iff. destruct x as [g| |e|[e|]| |g| | |]; cbn in H2; try (now elim (N e)); rewrite ?I2 in H2; try (destruct (m_view (o_model s0))); injection H2 as <- <-; cbn; repeat split; auto; intuition discriminate.
Qed.
(** A closed stream stays closed. *)
Lemma closed_stream s tr s' : orun s tr s' -> c_stream (o_chans s) = Closed -> c_stream (o_chans s') = Closed /\ Forall (fun e => e = zero_event) (handed tr).
Proof.
  induction 1 as [|tr s1 es s2 R IH S]; intros C; [split; [exact C|constructor]|]. destruct (IH C) as [C1 F]. rewrite handed_app. clear IH C.
  destruct S; cbn [o_chans send]; cbn [handed flat_map app]; rewrite ?app_nil_r; auto.
  - split; [now apply H|exact F].
  - rewrite C1 in H0. destruct H0 as [H0|[_ ->]]; [discriminate|]. cbn. rewrite C1. split; [reflexivity|]. apply Forall_app. auto.
Qed.
Lemma orun_app s a s1 b s2 : orun s a s1 -> orun s1 b s2 -> orun s (a ++ b) s2.
Proof. intros R. induction 1 as [|b s2 es s3 R2 IH S]; [now rewrite app_nil_r|]. rewrite app_assoc. econstructor; eauto. Qed.
Lemma endless n : forall s, o_over s = false -> m_view (o_model s) = true -> In CWait (o_cmds s) -> c_stream (o_chans s) = Closed ->
  exists tr s', orun s tr s' /\ handed tr = repeat zero_event n /\ collected s' = collected s ++ repeat zero_event n /\ (forall x, In (OMsg x) tr -> x = MResult zero_event) /\
  o_over s' = false /\ m_view (o_model s') = true /\ In CWait (o_cmds s') /\ c_stream (o_chans s') = Closed.
Proof.
  induction n as [|n IH]; intros s O V W C.
  { exists [], s. rewrite app_nil_r. repeat split; auto; [constructor|intros x []]. }
  apply in_split in W. destruct W as (u & v & W).
  pose (s1 := send s (u ++ v) [MResult zero_event] (mk_chans (taken (c_stream (o_chans s))) (c_err (o_chans s)) (c_done (o_chans s)))).
  assert (S1 : ostep s [OEvent zero_event] s1) by (apply O_wait; [exists u, v; auto|auto]).
  destruct (update (o_model s1) (MResult zero_event)) as [m cs] eqn:U.
  pose (s2 := mk_o m (o_cmds s1 ++ cs) (o_inbox s) (o_chans s1) false).
  assert (S2 : ostep s1 [OMsg (MResult zero_event)] s2) by (apply O_msg; [exact O|exists (o_inbox s), []; rewrite app_nil_r; auto|discriminate|exact U]).
  cbn in U. rewrite V in U. injection U as <- <-.
  destruct (IH s2) as (tr & s' & R & H & K & M & I); [reflexivity|reflexivity|cbn; rewrite in_app_iff; right; now left|cbn; rewrite C; reflexivity|].
  exists ([OEvent zero_event; OMsg (MResult zero_event)] ++ tr), s'. split; [|split; [|split; [|split; [|exact I]]]].
  - eapply orun_app; [|exact R]. apply (orun_step s [OEvent zero_event] s1); [|exact S2]. apply (orun_step s [] s); [constructor|exact S1].
  - cbn. now rewrite <- H.
  - rewrite K. unfold collected. cbn. now rewrite <- app_assoc.
  - intros x [X|[X|X]]; [discriminate|congruence|auto].
Qed.
(** The end of the session is not lost either. *)
Lemma out_of_other {A} (a x : A) l l' : out_of a l l' -> In x l -> x = a \/ In x l'.
Proof. intros (u & v & -> & ->). rewrite !in_app_iff. cbn. intuition. Qed.
Lemma ends f d tr s : orun (o_start f d) tr s -> ((exists e, error_seen (m_view (o_model (o_start f d))) tr e) \/ In (OMsg MQuitKey) tr) -> o_over s = true \/ In MQuit (o_inbox s) \/ In CQuit (o_cmds s).
Proof.
  set (st := m_view (o_model (o_start f d))).
  induction 1 as [|tr s1 es s2 R IH S]; intros H.
  { destruct H as [(e & a & b & E & _)|[]]. destruct a; discriminate E. }
  assert (J := o_invariant _ _ _ _ R). destruct J as (J1 & _). fold st in J1. clearbody st.
  assert (Q : ((exists e, error_seen st tr e) \/ In (OMsg MQuitKey) tr) \/ (exists e a b, es = a ++ OMsg (MErr (Some e)) :: b /\ viewing st (tr ++ a) = true) \/ In (OMsg MQuitKey) es).
  { destruct H as [[e H]|H]; [apply error_seen_app in H; destruct H as [H|H]; eauto 6|]. rewrite in_app_iff in H. tauto. }
  clear H.
  assert (D : forall y, (OMsg MQuitKey <> y) -> (forall e, OMsg (MErr (Some e)) <> y) -> In y es -> length es = 1 -> (exists e, error_seen st tr e) \/ In (OMsg MQuitKey) tr).
  { intros y N1 N2 Y L. destruct es as [|z [|]]; try discriminate L. destruct Y as [-> |[]]. destruct Q as [Q|[(e & a & b & E & _)|[Q|[]]]]; [exact Q| |congruence]. destruct a as [|? [|]]; try discriminate E. injection E as E. now elim (N2 e). }
  assert (D0 : (forall x, ~ In (OMsg x) es) -> (exists e, error_seen st tr e) \/ In (OMsg MQuitKey) tr).
  { intros N. destruct Q as [Q|[(e & a & b & -> & _)|Q]]; [exact Q| |now apply N in Q]. elim (N (MErr (Some e))). apply in_elt. }
  destruct S; cbn [o_over o_inbox o_cmds send].
  1-11: assert (P := IH (D0 ltac:(intros y Y; cbn in Y; intuition discriminate))); rewrite ?in_app_iff;
    destruct P as [P|[P|P]]; [tauto|tauto|]; try (match goal with O : out_of _ _ _ |- _ => destruct (out_of_other _ _ _ _ O P) as [E|E]; [try discriminate E|]; cbn; tauto end).
  - auto.
  - auto.
  - now left.
  - rewrite in_app_iff. destruct x as [g| |e|[e|]| |g| | |]; try (now elim H1).
    4: { destruct (m_view (o_model s)) eqn:V.
      - cbn in H2. rewrite V in H2. unfold after_view in H2. cbn in H2. injection H2 as <- <-. right. right. right. now left.
      - assert (P : (exists e, error_seen st tr e) \/ In (OMsg MQuitKey) tr).
        { destruct Q as [Q|[(e0 & a & b & E & Va)|[Q|[]]]]; [exact Q| |discriminate]. destruct a as [|? [|]]; try discriminate E. rewrite app_nil_r in Va. congruence. }
        destruct (IH P) as [X|[X|X]]; [congruence| |tauto]. destruct (out_of_other _ _ _ _ H0 X) as [E|E]; [discriminate E|tauto]. }
    7: { right. right. right. cbn in H2. destruct (m_view (o_model s)); unfold after_view in H2; cbn in H2; injection H2 as <- <-; now left. }
    all: match type of Q with context [[OMsg ?y]] => assert (P := IH (D (OMsg y) ltac:(discriminate) ltac:(intros; discriminate) ltac:(now left) eq_refl)) end; destruct P as [X|[X|X]]; [congruence| |tauto]; destruct (out_of_other _ _ _ _ H0 X) as [E|E]; [discriminate E|tauto].
Qed.
