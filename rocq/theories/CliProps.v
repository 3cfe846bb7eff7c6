(** Properties of [validate] *)
From Verif Require Import Base Chars CliModel CliSpec CliProofs.
From Verif Require ConfigModel.
Local Open Scope list_scope.

(** C05: the output is the first line, then each event received in order, then, if the stream was
    closed, that it was. *)
Theorem C05_output f tr s : hrun (h_start f) tr s ->
  h_out s = LStart f :: map LEvent (events tr) ++ (if existsb (fun a => match a with AClosed => true | _ => false end) tr then [LClosed] else []).
Proof.
  intros R. destruct (h_invariant _ _ _ R) as [-> P]. f_equal.
  assert (G : forall t, (forall a, In a t -> a <> AClosed) -> flat_map lines t = map LEvent (events t) /\ existsb (fun a => match a with AClosed => true | _ => false end) t = false).
  { induction t as [|a t IH]; intros N; [auto|]. destruct IH as [E1 E2]; [intros b B; apply N; now right|]. destruct a; cbn; rewrite ?E1, ?E2; auto. elim (N AClosed); [now left|reflexivity]. }
  assert (Q : (forall a, In a tr -> a <> AClosed) -> flat_map lines tr = map LEvent (events tr) ++ (if existsb (fun a => match a with AClosed => true | _ => false end) tr then [LClosed] else [])).
  { intros N. destruct (G tr N) as [-> ->]. now rewrite app_nil_r. }
  destruct (h_pc s) as [| | |o].
  - subst tr. reflexivity.
  - subst tr. reflexivity.
  - apply Q. destruct P as (t & -> & F). rewrite Forall_forall in F. intros a [<- | [<- | A]]; try discriminate. destruct (F a A) as [-> |[e ->]]; discriminate.
  - destruct P as (a & t & -> & _ & F & _). rewrite Forall_forall in F. destruct (G t) as [E1 E2]; [intros b B; destruct (F b B) as [-> |[-> |[-> |[e ->]]]]; discriminate|].
    unfold events. rewrite !flat_map_app, existsb_app, E2. fold (events t). rewrite E1, map_app. destruct a; cbn; now rewrite ?app_nil_r.
Qed.
(** It ends exactly when something stops it, at once, and with that result: *)
Theorem C05_result f tr s o : hrun (h_start f) tr s -> h_pc s = Ended o <-> exists tr' a, tr = tr' ++ [a] /\ stops a o.
Proof.
  intros R. destruct (h_invariant _ _ _ R) as [_ P]. split.
  - intros E. rewrite E in P. destruct P as (a & t & -> & St & _). eauto.
  - intros (t & a & -> & St). assert (In a (t ++ [a])) by (rewrite in_app_iff; right; now left). destruct (h_pc s) as [| | |o'].
    + destruct t; discriminate P.
    + destruct t as [|? [|]]; try discriminate P. injection P as ->. inversion St.
    + destruct P as (t' & E & F). rewrite E in H. rewrite Forall_forall in F. destruct H as [<- | [<- | A]]; try (now inversion St). destruct (F a A) as [-> |[e ->]]; inversion St.
    + destruct P as (a' & t' & E & St' & _). apply app_inj_tail in E. destruct E as [-> ->]. f_equal. inversion St; subst; inversion St'; reflexivity.
Qed.
(** only the last thing stops it, and only a stream that is closed by the engine gives success. *)
Theorem C05_at_once f tr s t a u o : hrun (h_start f) tr s -> tr = t ++ a :: u -> stops a o -> u = [].
Proof.
  intros R E St. destruct (h_invariant _ _ _ R) as [_ P]. assert (In a tr) by (rewrite E; apply in_elt). destruct (h_pc s) as [| | |o'].
  - subst tr. destruct t; discriminate.
  - rewrite P in H. destruct H as [<- | []]. inversion St.
  - destruct P as (t' & E' & F). rewrite E' in H. rewrite Forall_forall in F. destruct H as [<- | [<- | A]]; try (now inversion St). destruct (F a A) as [-> |[e ->]]; inversion St.
  - destruct P as (a' & t' & E' & _ & F & _). rewrite E' in E. apply split_app in E. destruct E as [(c & -> & _)|(c & -> & E)].
    + rewrite Forall_forall in F. destruct (F a) as [-> |[-> |[-> |[e ->]]]]; [apply in_elt|inversion St..].
    + destruct c as [|? [|]]; try discriminate. now injection E.
Qed.
Theorem C05_success f tr s : hrun (h_start f) tr s -> h_pc s = Ended None -> c_stream (h_chans s) = Closed /\
  exists d t, tr = ACreate d None :: AOpen None :: t ++ [AClosed] /\ forall a, In a t -> a = AErr None \/ exists e, a = AEvent e.
Proof.
  intros R E. destruct (h_invariant _ _ _ R) as [_ P]. rewrite E in P. destruct P as (a & t & -> & St & F & Cl & D). inversion St; subst. destruct (Cl eq_refl) as [C (t' & ->)]. split; [exact C|].
  exists empty_document, t'. split; [reflexivity|]. rewrite Forall_forall in F.
  assert (G : forall s tr, hrun (h_start f) tr s -> forall u v a, tr = u ++ a :: v -> match a with ACreate _ _ => u = [] | AOpen _ => length u = 1 | _ => True end).
  { clear. intros s tr. induction 1 as [|tr s1 es s2 R IH S]; intros u v a E; [destruct u; discriminate|]. apply split_app in E. destruct E as [(c & -> & _)|(c & -> & E)]; [now apply (IH u c)|]. destruct (h_invariant _ _ _ R) as [_ P].
    destruct S; destruct c as [|? [|]]; cbn in E; try discriminate; injection E as <- _; try exact Logic.I; rewrite H in P; subst; reflexivity. }
  intros a A. destruct (F a) as [-> |[-> |[-> |[e ->]]]]; [now right; right| | |auto|eauto].
  - apply in_split in A. destruct A as (u & v & ->). exfalso. assert (X := G _ _ R (ACreate empty_document None :: AOpen None :: u) (v ++ [AClosed]) (ACreate empty_document None)). cbn in X. rewrite <- app_assoc in X. specialize (X eq_refl). discriminate.
  - apply in_split in A. destruct A as (u & v & ->). exfalso. assert (X := G _ _ R (ACreate empty_document None :: AOpen None :: u) (v ++ [AClosed]) (AOpen None)). cbn in X. rewrite <- app_assoc in X. specialize (X eq_refl). discriminate.
Qed.
(** The loop is never stuck when there is something to receive. *)
Theorem C05_progress s : h_pc s = Looping -> c_stream (h_chans s) <> Idle \/ c_err (h_chans s) <> Idle \/ c_done (h_chans s) <> None -> exists a s', hstep s [a] s'.
Proof.
  intros L [H|[H|H]].
  - destruct (c_stream (h_chans s)) as [|e|] eqn:C; [now elim H|exists (AEvent e)|exists AClosed]; eexists; [now apply H_event|now apply H_closed].
  - destruct (c_err (h_chans s)) as [|[e|]|] eqn:C; [now elim H|exists (AErr (Some e))|exists (AErr None)|exists (AErr None)]; eexists; [now apply H_error|now apply H_no_error|now apply H_error_closed].
  - destruct (c_done (h_chans s)) as [e|] eqn:C; [|now elim H]. exists (ADone e). eexists. now apply H_done.
Qed.

(** A run that was cancelled stays so: from then on the loop can end with that reason whenever it waits. *)
Theorem C05_cancelled s e tr s' : c_done (h_chans s) = Some e -> hrun s tr s' -> h_pc s' = Looping ->
  exists s2, hstep s' [ADone e] s2 /\ h_pc s2 = Ended (Some e) /\ h_out s2 = h_out s'.
Proof.
  intros D R L. assert (D' : c_done (h_chans s') = Some e).
  { clear L. induction R as [|tr s1 es s2 R IH H]; [exact D|].
    destruct H; cbn; auto. match goal with M : may_become _ _ |- _ => destruct M as (_ & _ & M); auto end. }
  eexists. split; [now apply H_done|]. split; reflexivity.
Qed.

(** C06: at most one validation is created, however many files are selected; *)
Theorem C06_one f d tr s : orun (o_start f d) tr s -> length (creations tr) <= 1.
Proof. intros R. destruct (o_invariant _ _ _ _ R) as (_ & _ & H & _). destruct (streaming s); lia. Qed.
(** the results that are shown are the first of those received, in order; unless the selection was
    given up meanwhile, at most one is on its way; *)
Theorem C06_order f d tr s : orun (o_start f d) tr s -> exists rest, handed tr = v_collected (m_validate (o_model s)) ++ rest /\ (no_clear tr -> length rest <= 1).
Proof.
  intros R. destruct (o_invariant _ _ _ _ R) as (_ & _ & _ & H & (rest & E & D) & _). exists rest. split; [exact E|]. intros N. destruct D as [-> |(_ & _ & _ & X)]; [|contradiction]. destruct (streaming s); lia.
Qed.
(** the command returns an error exactly if an error message came while results were shown. *)
Theorem C06_error f d tr s : orun (o_start f d) tr s -> let start := m_view (o_model (o_start f d)) in
  (exit_error s <> None <-> exists e, error_seen start tr e) /\ (forall e, exit_error s = Some e -> error_seen start tr e).
Proof.
  intros R start. destruct (errors _ _ _ _ R) as [E1 E2]. split; [|exact E1]. unfold exit_error. split; [|intros [e H]; eauto]. destruct (m_error (o_model s)) as [e|] eqn:E; [|now intros []]. intros _. exists e. now apply E1.
Qed.
(** and after that the session is over, or about to be; so it is after a key that ends it. *)
Theorem C06_ends f d tr s : orun (o_start f d) tr s -> (exists e, error_seen (m_view (o_model (o_start f d))) tr e) \/ In (OMsg MQuitKey) tr ->
  o_over s = true \/ In MQuit (o_inbox s) \/ In CQuit (o_cmds s).
Proof. intros R. apply (ends _ _ _ _ R). Qed.
(** The results are shown at the start exactly if a file was given. *)
Theorem C06_start f d : m_view (o_model (o_start f d)) = true <-> f <> [] /\ d = false.
Proof. unfold o_start. destruct f, d; cbn; intuition congruence. Qed.
(** Then it is validated without a key, *)
Theorem C06_at_once f : f <> [] -> exists s, orun (o_start f false) [OMsg (MSelect f); OCreate (mk_document (chars "file") (chars "/") f) None; OOpen None] s.
Proof.
  intros N. destruct f as [|c f]; [congruence|]. eexists. change ([OMsg (MSelect (c :: f)); OCreate (mk_document (chars "file") (chars "/") (c :: f)) None; OOpen None]) with ((([] ++ []) ++ [OMsg (MSelect (c :: f))]) ++ [OCreate (file_document (c :: f)) None; OOpen None]).
  eapply orun_step; [eapply orun_step; [eapply orun_step; [apply orun_refl|]|]|].
  - apply (O_select _ [] (c :: f)). exists [], []. split; reflexivity.
  - eapply (O_msg _ [] (MSelect (c :: f))); [reflexivity|exists [], []; split; reflexivity|discriminate|reflexivity].
  - apply (O_start_ok _ [CWait; CCheck] (c :: f)). exists [], [CWait; CCheck]. split; reflexivity.
Qed.
Lemma only_pick m x g : In (CSelect g) (snd (update m x)) -> x = MPick g.
Proof.
  unfold update, after_view. destruct x; cbn; repeat match goal with |- context [if ?b then _ else _] => destruct b; cbn end; try (match goal with |- context [match ?o with Some _ => _ | None => _ end] => destruct o; cbn end); intuition congruence.
Qed.
(** and otherwise only a file that was picked is selected. *)
Theorem C06_picked f d tr s g : f = [] \/ d = true -> orun (o_start f d) tr s -> In (OMsg (MSelect g)) tr -> In (OMsg (MPick g)) tr.
Proof.
  intros D R. enough (G : forall g, In (OMsg (MSelect g)) tr \/ In (MSelect g) (o_inbox s) \/ In (CSelect g) (o_cmds s) -> In (OMsg (MPick g)) tr) by auto. clear g.
  assert (O : forall A (a b : A) l l', out_of a l l' -> In b l <-> b = a \/ In b l'). { intros A a b l l' (u & v & -> & ->). rewrite !in_app_iff. cbn. intuition auto. }
  induction R as [|tr s1 es s2 R IH S]; intros g.
  - unfold o_start. destruct f; [intros [[]|[[]|[]]]|]. destruct D as [D| ->]; [discriminate|]. intros [[]|[[]|[]]].
  - rewrite !in_app_iff. specialize (IH g). destruct S; cbn [In send o_inbox o_cmds] in *; rewrite ?in_app_iff; cbn [In].
    all: try (match goal with H : out_of _ (o_cmds _) _ |- _ => pose proof (O _ _ (CSelect g) _ _ H) end).
    all: try (match goal with H : out_of _ (o_inbox _) _ |- _ => pose proof (O _ _ (MSelect g) _ _ H) end).
    all: try (intuition (try discriminate; try congruence); fail).
    + destruct H as [[<-|[<-|[]]]|[->|(h & ->)]]; intuition discriminate.
    + intros [[H3|[]]|[[H3|[[= ->]|[]]]|H3]]; tauto.
    + intros [[Q|[[= ->]|[]]]|[Q|[Q|Q]]]; [tauto|left; tauto|tauto|left; tauto|].
      assert (E : x = MPick g) by (apply (only_pick (o_model s)); now match goal with H : update _ _ = _ |- _ => rewrite H end). subst x. tauto.
Qed.
(** After the end nothing is taken any more. *)
Theorem C06_over s tr s' x : orun s tr s' -> o_over s = true -> o_over s' = true /\ ~ In (OMsg x) tr.
Proof.
  intros R O. induction R as [|tr s1 es s2 R (IH & N) S]; [split; [exact O|intros []]|]. split; [destruct S; cbn; congruence|]. rewrite in_app_iff. intros [H|H]; [auto|].
  destruct S; cbn in H; repeat (destruct H as [H|H]; try discriminate H); try contradiction; congruence.
Qed.

(** C79: the session ends only for a key or an error: never because validation is complete; *)
Theorem C79_end_refuted f d tr s : orun (o_start f d) tr s -> o_over s = true -> In MQuitKey (o_inbox s) \/ In (OMsg MQuitKey) tr \/ exists e, error_seen (m_view (o_model (o_start f d))) tr e.
Proof. intros R O. apply (over _ _ _ _ R). now left. Qed.
Theorem C79_finished_refuted f d tr s : orun (o_start f d) tr s -> v_finished (m_validate (o_model s)) = false.
Proof. intros R. destruct (o_invariant _ _ _ _ R) as (_ & _ & _ & _ & _ & H & _). exact H. Qed.
(** once the stream is closed, any number of empty results is shown. *)
Theorem C79_empty_refuted n s : o_over s = false -> m_view (o_model s) = true -> In CWait (o_cmds s) -> c_stream (o_chans s) = Closed ->
  exists tr s', orun s tr s' /\ v_collected (m_validate (o_model s')) = v_collected (m_validate (o_model s)) ++ repeat zero_event n /\ forall x, In (OMsg x) tr -> x = MResult zero_event.
Proof. intros O V W C. destruct (endless n s O V W C) as (tr & s' & R & _ & K & M & _). exists tr, s'. auto. Qed.
Theorem C79_only_empty s tr s' : orun s tr s' -> c_stream (o_chans s) = Closed -> forall e, In (OEvent e) tr -> e = zero_event.
Proof.
  intros R C e H. destruct (closed_stream _ _ _ R C) as [_ F]. rewrite Forall_forall in F. apply F. unfold handed. apply in_flat_map. exists (OEvent e). split; [exact H|now left].
Qed.

(** C80: an error that was received is not lost; *)
Theorem C80_kept f d tr s e : orun (o_start f d) tr s -> (In (OErr (Some e)) tr \/ In (OOpen (Some e)) tr \/ exists dc e', In (OCreate dc (Some e')) tr /\ e = reported e') ->
  In (MErr (Some e)) (o_inbox s) \/ In (OMsg (MErr (Some e))) tr.
Proof. intros R H. apply (transit _ _ _ R); [|exact H]. unfold o_start. now destruct f. Qed.
(** but when no check is running, and no result on its way, none is received before the next
    result. *)
Theorem C80_late_refuted f d tr s tr' s' : orun (o_start f d) tr s -> v_streaming (m_validate (o_model s)) = true -> ~ In CCheck (o_cmds s) -> (forall e, ~ In (MResult e) (o_inbox s)) ->
  orun s tr' s' -> (forall e, ~ In (OEvent e) tr') -> forall o, ~ In (OErr o) tr'.
Proof.
  intros _ A B C R H. apply (late s tr' s' R A B).
  - unfold waiting. destruct (flat_map _ (o_inbox s)) as [|e l] eqn:E; [reflexivity|]. assert (X : In e (e :: l)) by now left. rewrite <- E in X. apply in_flat_map in X. destruct X as (x & X & Y). destruct x; try (now destruct Y). destruct Y as [-> |[]]. now apply C in X.
  - unfold handed. destruct (flat_map _ tr') as [|e l] eqn:E; [reflexivity|]. assert (X : In e (e :: l)) by now left. rewrite <- E in X. apply in_flat_map in X. destruct X as (x & X & Y). destruct x; try (now destruct Y). destruct Y as [-> |[]]. now apply H in X.
Qed.

(** C81: what is validated is the first file selected, what is shown the last: *)
Theorem C81_validated f d tr s dc o : orun (o_start f d) tr s -> In (OCreate dc o) tr -> exists a b g, tr = a ++ OMsg (MSelect g) :: b /\ no_select a /\ dc = mk_document (chars "file") (chars "/") g.
Proof. intros R H. destruct (validated _ _ _ _ R) as (_ & _ & V). destruct (V _ _ H) as (g & (a & b & E & N) & ->). exists a, b, g. auto. Qed.
Theorem C81_shown f d a g c s : orun (o_start f d) (a ++ OMsg (MSelect g) :: c) s -> no_select c -> no_clear c -> m_file (o_model s) = g.
Proof. intros R N C. rewrite (shown _ _ _ R), last_file_app. cbn. now apply last_file_quiet. Qed.
Theorem C81_other_refuted f d a b c g h s : orun (o_start f d) (a ++ OMsg (MSelect g) :: b ++ OMsg (MSelect h) :: c) s -> no_select a -> no_select c -> no_clear c -> g <> h ->
  m_file (o_model s) = h /\ forall dc o, In (OCreate dc o) (a ++ OMsg (MSelect g) :: b ++ OMsg (MSelect h) :: c) -> d_file dc <> h.
Proof.
  intros R Na Nc Cc D. split.
  - eapply (C81_shown f d (a ++ OMsg (MSelect g) :: b)); eauto. rewrite <- app_assoc. exact R.
  - intros dc o H. destruct (validated _ _ _ _ R) as (_ & _ & V). destruct (V _ _ H) as (k & F & ->). cbn. enough (k = g) by congruence. eapply first_one; [exact F|]. exists a, (b ++ OMsg (MSelect h) :: c). auto.
Qed.

(** C82: without a terminal no document is named, whatever the file. *)
Theorem C82_document_refuted f tr s d o : hrun (h_start f) tr s -> In (ACreate d o) tr -> d = mk_document [] [] [].
Proof.
  intros R. induction R as [|tr s1 es s2 R IH S]; [intros []|]. rewrite in_app_iff. intros [H|H]; [auto|]. destruct S; cbn in H; repeat (destruct H as [H|H]; try discriminate H); try contradiction; now injection H as <-.
Qed.

(** C83: the result does not depend on the diagnostics: after any events the command may end, and
    when the stream has ended the result is success. *)
Theorem C83_status_refuted f : (forall evs, exists tr s, hrun (h_start f) tr s /\ events tr = evs /\ In AClosed tr) /\ (forall tr s, hrun (h_start f) tr s -> In AClosed tr -> h_pc s = Ended None).
Proof.
  split.
  - intros evs. assert (G : exists tr s, hrun (h_start f) tr s /\ events tr = evs /\ h_pc s = Looping /\ h_chans s = open_chans).
    { induction evs as [|e evs IH] using rev_ind.
      - eexists _, _. split; [eapply hrun_step; [eapply hrun_step; [apply hrun_refl|apply H_created; reflexivity]|apply H_opened; reflexivity]|auto].
      - destruct IH as (tr & s & R & E & L & C).
        eexists _, _. split; [eapply hrun_step; [eapply hrun_step; [exact R|apply (H_client s (mk_chans (Offer e) Idle None)); rewrite C; repeat split; cbn; auto; discriminate]|apply H_event; [exact L|reflexivity]]|]. cbn. split; [|auto]. unfold events in *. rewrite !flat_map_app, E. cbn. now rewrite ?app_nil_r. }
    destruct G as (tr & s & R & E & L & C).
    eexists _, _. split; [eapply hrun_step; [eapply hrun_step; [exact R|apply (H_client s (mk_chans Closed Idle None)); rewrite C; repeat split; cbn; auto; discriminate]|apply H_closed; [exact L|reflexivity]]|]. unfold events in *. rewrite !flat_map_app, E. cbn. rewrite !app_nil_r. split; [reflexivity|]. apply in_or_app. right. now left.
  - intros tr s R H. apply in_split in H. destruct H as (t & u & E). rewrite (C05_result f tr s None R). pose proof (C05_at_once f tr s t AClosed u None R E stop_closed) as ->. exists t, AClosed. split; [exact E|constructor].
Qed.
Theorem C83_interactive_refuted f d tr s : orun (o_start f d) tr s -> (forall e, ~ In (OMsg (MErr (Some e))) tr) -> exit_error s = None.
Proof.
  intros R N. destruct (C06_error f d tr s R) as [_ E]. destruct (exit_error s) as [e|]; [|reflexivity]. destruct (E e eq_refl) as (a & b & -> & _). elim (N e). apply in_elt.
Qed.

(** C84: the client does not depend on the configuration. *)
Theorem C84_endpoint_refuted env p v b : ConfigModel.get_string env p "engineEndpoint" = Ok (v, b) -> v <> "http://localhost:8325"%string -> cl_endpoint (engine_create p) <> v.
Proof. intros _ N E. apply N. now rewrite <- E. Qed.
Theorem C84_protocol_refuted env p v b : ConfigModel.get_string env p "connectProtocol" = Ok (v, b) -> v <> "tcp"%string -> cl_protocol (engine_create p) <> v.
Proof. intros _ N E. apply N. now rewrite <- E. Qed.

(** Examples *)
Definition bad : event := mk_event LError (chars "no such resource").
Definition boom : error := Other (chars "boom").
Ltac allow := unfold may_become; cbn; repeat split; auto; discriminate.
Local Tactic Notation "hgo" ident(X) uconstr(k) :=
  let Y := fresh "Y" in
  match type of X with hrun ?s0 ?tr ?s => eassert (Y : hstep s _ _); [eapply k; try reflexivity; try discriminate; try solve [allow]|] end;
  apply (hrun_step _ _ _ _ _ X) in Y; clear X; rename Y into X.
Example C05_nonvacuous : (exists s, hrun (h_start (chars "a")) [ACreate empty_document None; AOpen None; AEvent bad; AErr None; AClosed] s /\ h_out s = [LStart (chars "a"); LEvent bad; LClosed] /\ h_pc s = Ended None) /\
  (exists s, hrun (h_start (chars "a")) [ACreate empty_document None; AOpen None; AErr (Some boom)] s /\ h_pc s = Ended (Some boom) /\ c_stream (h_chans s) = Offer bad).
Proof.
  split.
  - assert (X := hrun_refl (h_start (chars "a"))). hgo X H_created. hgo X H_opened. hgo X (H_client _ (mk_chans (Offer bad) Closed None)). hgo X H_event. hgo X H_error_closed. hgo X (H_client _ (mk_chans Closed Closed None)). hgo X H_closed. eexists. split; [exact X|split; reflexivity].
  - assert (X := hrun_refl (h_start (chars "a"))). hgo X H_created. hgo X H_opened. hgo X (H_client _ (mk_chans (Offer bad) (Offer (Some boom)) None)). hgo X H_error. eexists. split; [exact X|split; reflexivity].
Qed.
Ltac pick := solve [exists []; eexists; split; reflexivity | eexists [_]; eexists; split; reflexivity | eexists [_; _]; eexists; split; reflexivity | eexists [_; _; _]; eexists; split; reflexivity].
Local Tactic Notation "ogo" ident(X) uconstr(k) :=
  let Y := fresh "Y" in
  match type of X with orun ?s0 ?tr ?s => eassert (Y : ostep s _ _); [eapply k; try reflexivity; try discriminate; try pick; try solve [allow]; try (vm_compute; tauto); try solve [right; right; eexists; reflexivity]|] end;
  apply (orun_step _ _ _ _ _ X) in Y; clear X; rename Y into X; cbn in X.
(** A file is given, its validation is created, an event comes, then an error while a check is
    running. *)
Example C06_nonvacuous : exists tr s, orun (o_start (chars "a") false) tr s /\ creations tr = [file_document (chars "a")] /\ v_collected (m_validate (o_model s)) = [bad] /\ o_over s = true /\ exit_error s = Some boom.
Proof.
  assert (X := orun_refl (o_start (chars "a") false)). ogo X (O_select _ _ (chars "a")). ogo X (O_msg _ _ (MSelect (chars "a"))). ogo X (O_start_ok _ _ (chars "a")). ogo X (O_client _ (mk_chans (Offer bad) Idle None)). ogo X (O_wait _ _ bad).
  ogo X (O_msg _ _ (MResult bad)). ogo X (O_client _ (mk_chans Idle (Offer (Some boom)) None)). ogo X (O_check _ _ (Some boom)). ogo X (O_msg _ _ (MErr (Some boom))). ogo X (O_quit _). ogo X (O_end _).
  eexists _, _. split; [exact X|]. repeat split.
Qed.
(** The stream has ended, and the session goes on. *)
Example C79_nonvacuous : exists tr s, orun (o_start (chars "a") false) tr s /\ o_over s = false /\ m_view (o_model s) = true /\ In CWait (o_cmds s) /\ c_stream (o_chans s) = Closed /\ v_collected (m_validate (o_model s)) = [bad].
Proof.
  assert (X := orun_refl (o_start (chars "a") false)). ogo X (O_select _ _ (chars "a")). ogo X (O_msg _ _ (MSelect (chars "a"))). ogo X (O_start_ok _ _ (chars "a")). ogo X (O_client _ (mk_chans (Offer bad) Idle None)). ogo X (O_wait _ _ bad).
  ogo X (O_msg _ _ (MResult bad)). ogo X (O_client _ (mk_chans Closed Idle None)).
  eexists _, _. split; [exact X|]. repeat split. cbn. tauto.
Qed.
Example C79_key : exists tr s, orun (o_start [] false) tr s /\ o_over s = true /\ In (OMsg MQuitKey) tr.
Proof.
  assert (X := orun_refl (o_start [] false)). ogo X (O_key _ MQuitKey). ogo X (O_msg _ _ MQuitKey). ogo X (O_quit _). ogo X (O_end _). eexists _, _. split; [exact X|]. split; [reflexivity|]. cbn. tauto.
Qed.
(** The first check is over when the error comes. *)
Example C80_nonvacuous : exists tr s, orun (o_start (chars "a") false) tr s /\ v_streaming (m_validate (o_model s)) = true /\ ~ In CCheck (o_cmds s) /\ o_inbox s = [] /\ In CWait (o_cmds s) /\ c_err (o_chans s) = Offer (Some boom).
Proof.
  assert (X := orun_refl (o_start (chars "a") false)). ogo X (O_select _ _ (chars "a")). ogo X (O_msg _ _ (MSelect (chars "a"))). ogo X (O_start_ok _ _ (chars "a")). ogo X (O_check_time _). ogo X (O_msg _ _ (MErr None)). ogo X (O_client _ (mk_chans Idle (Offer (Some boom)) None)).
  eexists _, _. split; [exact X|]. cbn. repeat split; [intuition discriminate|tauto].
Qed.
(** Two files are picked before the first selection arrives. *)
Example C81_nonvacuous : exists b c s, orun (o_start [] false) ([OMsg (MPick (chars "a")); OMsg (MPick (chars "b"))] ++ OMsg (MSelect (chars "a")) :: b ++ OMsg (MSelect (chars "b")) :: c) s /\ no_select c /\ no_clear c /\ creations (b ++ c) = [file_document (chars "a")] /\ m_file (o_model s) = chars "b".
Proof.
  assert (X := orun_refl (o_start [] false)). ogo X (O_key _ (MPick (chars "a"))). ogo X (O_msg _ _ (MPick (chars "a"))). ogo X (O_key _ (MPick (chars "b"))). ogo X (O_msg _ _ (MPick (chars "b"))).
  ogo X (O_select _ _ (chars "a")). ogo X (O_msg _ _ (MSelect (chars "a"))). ogo X (O_select _ _ (chars "b")). ogo X (O_msg _ _ (MSelect (chars "b"))). ogo X (O_start_ok _ _ (chars "a")).
  exists [], [OCreate (file_document (chars "a")) None; OOpen None]. eexists. split; [exact X|]. split; [intros f [H|[H|[]]]; discriminate|]. split; [intros [H|[H|[]]]; discriminate|]. split; reflexivity.
Qed.
Example C82_nonvacuous : exists tr s, hrun (h_start (chars "app.blueprint.yaml")) tr s /\ In (ACreate empty_document None) tr.
Proof. assert (X := hrun_refl (h_start (chars "app.blueprint.yaml"))). hgo X H_created. eexists _, _. split; [exact X|now left]. Qed.
Example C83_nonvacuous : exists tr s, hrun (h_start (chars "a")) tr s /\ events tr = [bad; bad] /\ In AClosed tr.
Proof. apply (proj1 (C83_status_refuted (chars "a")) [bad; bad]). Qed.
Definition ex_provider := ConfigModel.Build_provider [] [("engineEndpoint"%string, Some (ConfigModel.Build_flag "http://engine:80" true))] [] None.
Example C84_nonvacuous : ConfigModel.get_string (fun _ => None) ex_provider "engineEndpoint" = Ok ("http://engine:80"%string, false) /\ cl_endpoint (engine_create ex_provider) = "http://localhost:8325"%string.
Proof. split; reflexivity. Qed.
Print Assumptions C05_output.
Print Assumptions C05_result.
Print Assumptions C05_at_once.
Print Assumptions C05_success.
Print Assumptions C05_cancelled.
Print Assumptions C05_progress.
Print Assumptions C06_one.
Print Assumptions C06_order.
Print Assumptions C06_error.
Print Assumptions C06_ends.
Print Assumptions C06_start.
Print Assumptions C79_end_refuted.
Print Assumptions C79_finished_refuted.
Print Assumptions C79_empty_refuted.
Print Assumptions C79_only_empty.
Print Assumptions C80_kept.
Print Assumptions C80_late_refuted.
Print Assumptions C81_validated.
Print Assumptions C81_shown.
Print Assumptions C81_other_refuted.
Print Assumptions C82_document_refuted.
Print Assumptions C83_status_refuted.
Print Assumptions C83_interactive_refuted.
Print Assumptions C84_endpoint_refuted.
Print Assumptions C84_protocol_refuted.
Print Assumptions C06_at_once.
Print Assumptions C06_picked.
Print Assumptions C06_over.
