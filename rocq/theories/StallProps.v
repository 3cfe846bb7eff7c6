(** Theorems about the tasks of a node that write to sockets (C147, C148).  Model: StallModel.v over
    WsModel.v.  Vocabulary: StallSpec.v. *)
From Verif Require Import Base Value Bytes WsModel WsSpec WsProofs WsProps LostModel StallModel StallSpec StallProofs.
Local Open Scope list_scope.

Section S.
Variable parse : text -> option value.
Variable key : text.
Variable routes : text -> bool.
Notation nrun := (nrun parse key routes).
Notation nstep := (nstep parse key routes).

(** C147: a client delays no messages but its own.  Refuted: while a task waits for the socket of a
    client that is connected and silent, it does nothing at all, for as long as the client is silent,
    whatever else happens. *)
Theorem C147_stalled_refuted : forall tr n sd k tr' n', nrun start tr n -> waits_for n sd k -> se_phase (s_ses (n_ws n) k) = Reading ->
  nrun n tr' n' -> silent k tr' -> halted sd tr'.
Proof.
  intros tr n sd k tr' n' H (j & t & m & L & J) P R Q.
  exact (proj1 (stalled _ _ _ _ _ _ _ _ _ _ _ (nrun_winv _ _ _ _ _ H) L J P R Q)).
Qed.
(** And a single item brings that about in every state: when an item for a silent client arrives at a
    task that has nothing to do, no item that arrives later is taken up while the client is silent,
    so that no acknowledgement is recorded or sent, and nothing is resent. *)
Theorem C147_others_refuted : forall tr n sd id k i1 i2, nrun start tr n ->
  n_loop n sd = mk_loop [] [] None -> s_reg (n_ws n) id = Some k -> se_phase (s_ses (n_ws n) k) = Reading ->
  side_of i1 = sd -> side_of i2 = sd -> first_for i1 id ->
  exists tr1 n1, nrun n tr1 n1 /\ arrived sd tr1 = [i1; i2] /\ silent k tr1 /\
    forall tr' n', nrun n1 tr' n' -> silent k tr' -> taken sd (tr1 ++ tr') = [i1] /\ forall f, ~ In (Does sd f) (tr1 ++ tr').
Proof.
  intros tr n sd id k i1 i2 H L R P S1 S2 F.
  assert (T : exists m a b r, tasks_of false i1 = Write id m a b :: r).
  { destruct i1 as [c mid m src|mid|c mid m inf|mid inf]; cbn in F |- *; [subst; eauto|contradiction|subst; eauto|destruct F as [rest ->]; cbn; eauto]. }
  destruct T as (m & a & b & r & T).
  set (s := n_ws n) in *.
  pose (n1 := set_loop n s sd (mk_loop [i1] [] None)).
  pose (n2 := set_loop n1 s sd (mk_loop [i1; i2] [] None)).
  pose (n3 := set_loop n2 s sd (mk_loop [i2] (Write id m a b :: r) None)).
  pose (j := s_next_job s).
  pose (n4 := set_loop n3 (new_job s (Looking id m)) sd (mk_loop [i2] r (Some (j, Write id m a b)))).
  pose (s5 := set_ses (set_job (n_ws n4) j (Queued k m)) k (enqueue (WSend j) (s_ses (n_ws n4) k))).
  pose (n5 := mk_node s5 (n_loop n4)).
  assert (E1 : nstep n [Arrives i1] n1).
  { pose proof (N_arrives parse key routes n i1) as X. rewrite S1, L in X. exact X. }
  assert (E2 : nstep n1 [Arrives i2] n2).
  { pose proof (N_arrives parse key routes n1 i2) as X. rewrite S2 in X. assert (Y : n_loop n1 sd = mk_loop [i1] [] None) by apply set_same. rewrite Y in X. exact X. }
  assert (E3 : nstep n2 [Takes i1] n3).
  { pose proof (N_takes parse key routes n2 i1 [i2] false) as X. rewrite S1, T in X. apply X. unfold n2. apply set_same. }
  assert (E4 : nstep n3 [Ws (ESend j id m)] n4).
  { apply (N_write parse key routes n3 sd [i2] id m a b r). unfold n3. apply set_same. }
  assert (E5 : nstep n4 [] n5).
  { apply (N_ws parse key routes n4 [] s5). unfold s5. apply (S_found _ _ _ _ j id m k); [cbn; apply upd_eq|exact R]. }
  pose proof (N_step _ _ _ _ _ _ _ _ (N_step _ _ _ _ _ _ _ _ (N_step _ _ _ _ _ _ _ _ (N_step _ _ _ _ _ _ _ _ (N_step _ _ _ _ _ _ _ _ (N_refl parse key routes n) E1) E2) E3) E4) E5) as RR.
  exists [Arrives i1; Arrives i2; Takes i1; Ws (ESend j id m)], n5. split; [exact RR|].
  assert (SS : same_side sd sd = true) by (now destruct sd).
  split; [cbn [arrived]; rewrite S1, S2, SS; reflexivity|].
  assert (Q : silent k [Arrives i1; Arrives i2; Takes i1; Ws (ESend j id m)]) by (split; [intros f X|intros X]; cbn in X; repeat destruct X as [X|X]; try discriminate; contradiction).
  split; [exact Q|]. intros tr' n' R' Q'.
  assert (H5 : nrun start (tr ++ [Arrives i1; Arrives i2; Takes i1; Ws (ESend j id m)]) n5) by (eapply nrun_app; [exact H|exact RR]).
  assert (W : waits_for n5 sd k).
  { exists j, (Write id m a b), m. split; [unfold n5; cbn [n_loop]; unfold n4; now rewrite set_same|]. cbn. now rewrite upd_eq. }
  assert (P5 : se_phase (s_ses (n_ws n5) k) = Reading) by (cbn; rewrite upd_eq; exact P).
  destruct (C147_stalled_refuted _ _ _ _ _ _ H5 W P5 R' Q') as (Tk & D).
  rewrite taken_app, Tk, app_nil_r. split; [cbn [taken]; rewrite S1, SS; reflexivity|].
  intros f X. rewrite in_app_iff in X. destruct X as [X|X]; [cbn in X; repeat destruct X as [X|X]; try discriminate; contradiction|now apply (D f)].
Qed.
(** What holds: between two frames of the client the task gets the socket, and can go on. *)
Theorem C147_resumes : forall tr n sd k f g d tr' n' j conn msg a b, nrun start tr n -> l_job (n_loop n sd) = Some (j, Write conn msg a b) ->
  s_jobs (n_ws n) j = Queued k msg -> se_phase (s_ses (n_ws n) k) = Reading ->
  nrun n tr' n' -> sockets tr' = EFrame k f :: d ++ [EFrame k g] ->
  In (EDeliver j k msg) d /\
  (l_job (n_loop n' sd) = Some (j, Write conn msg a b) ->
   exists n2, nstep n' (map (Does sd) a) n2 /\ l_job (n_loop n2 sd) = None /\ l_queue (n_loop n2 sd) = l_queue (n_loop n' sd)).
Proof.
  intros tr n sd k f g d tr' n' j conn msg a b H L J P R E.
  pose proof (proj _ _ _ _ _ _ H) as RW. pose proof (proj _ _ _ _ _ _ R) as R'. rewrite E in R'.
  assert (D : In (EDeliver j k msg) d) by (exact (C71_window _ _ _ _ _ _ _ _ _ _ _ _ RW J P R')).
  split; [exact D|]. intros L'.
  assert (J' : s_jobs (n_ws n') j = Sent).
  { pose proof (run_app _ _ _ _ _ _ _ _ RW R') as RA.
    destruct (sends _ _ _ _ _ RA j) as (_ & _ & C). apply (C k msg). rewrite in_app_iff. right. right. rewrite in_app_iff. now left. }
  destruct (n_loop n' sd) as [q todo job] eqn:Q. cbn in L'. subst job.
  eexists. split; [exact (N_written parse key routes n' sd q conn msg a b todo j Q J')|]. rewrite set_same. auto.
Qed.
(** Items are taken up in the order of arrival, none is left out and none is invented. *)
Theorem C147_order : forall tr n sd, nrun start tr n -> exists rest, arrived sd tr = taken sd tr ++ rest.
Proof. intros tr n sd H. eexists. exact (in_order _ _ _ _ _ H sd). Qed.

(** C148: a node acknowledges a message of another node only after it has been written to the socket
    of a session with that connection id, and tells the node it came from. *)
Theorem C148_acknowledged : forall a mid source d n, nrun start (a ++ Does Listener (PublishAck mid source) :: d) n ->
  exists conn msg j k, In (Takes (FromNode conn mid msg source)) a /\ In (Ws (EDeliver j k msg)) a /\ In (Ws (EOpen k conn)) a.
Proof.
  intros a mid source d n H. destruct (nrun_split _ _ _ _ _ _ H a _ d eq_refl) as (a0 & n1 & es & n2 & x & y & R & S & E & ->).
  pose proof (tinv_run _ _ _ _ _ R) as [T1 T2].
  assert (Hin : In (Does Listener (PublishAck mid source)) es) by (rewrite E, in_app_iff; right; now left). clear E.
  destruct S as [n1 es ws S|n1 i|n1 i q dup Q|n1 sd q f r Q|n1 sd q conn msg fa fb r Q|n1 sd q conn msg fa fb r j Q J|n1 sd q conn msg fa fb r j Q J].
  - apply in_map_iff in Hin. destruct Hin as (? & Hx & _). discriminate.
  - destruct Hin as [Hin|[]]. discriminate.
  - destruct Hin as [Hin|[]]. discriminate.
  - destruct Hin as [Hin|[]]. injection Hin as -> ->. destruct (T1 Listener (Do (PublishAck mid source))) as (i & dup & _ & _ & T); [rewrite Q; now left|].
    destruct i as [c m0 m src|m0|c m0 m inf|m0 inf]; cbn in T; [destruct dup; cbn in T| | |apply in_map_iff in T; destruct T as (? & T & _)]; intuition discriminate.
  - destruct Hin as [Hin|[]]. discriminate.
  - apply in_map_iff in Hin. destruct Hin as (f & Hf & Hin). injection Hf as -> ->.
    destruct (T2 Listener j (Write conn msg fa fb)) as ((i & dup & Tk & Sd & T) & c' & m' & a' & b' & Ew & Se); [now rewrite Q|]. injection Ew as <- <- <- <-.
    destruct i as [c m0 m src|m0|c m0 m inf|m0 inf]; cbn in Sd; try discriminate; cbn in T.
    + destruct dup; cbn in T; [contradiction|]. destruct T as [T|[]]. injection T as -> -> <- <-. destruct Hin as [Hin|[]]. injection Hin as -> ->.
      destruct (written_addressee _ _ _ _ _ _ _ _ R Se J) as (k & D & O).
      exists conn, msg, j, k. rewrite !in_app_iff. auto.
    + destruct T as [T|[]]. discriminate.
  - apply in_map_iff in Hin. destruct Hin as (f & Hf & Hin). injection Hf as -> ->.
    destruct (T2 Listener j (Write conn msg fa fb)) as ((i & dup & Tk & Sd & T) & _); [now rewrite Q|].
    destruct i as [c m0 m src|m0|c m0 m inf|m0 inf]; cbn in Sd; try discriminate; cbn in T.
    + destruct dup; cbn in T; [contradiction|]. destruct T as [T|[]]. injection T as <- <- <- <-. destruct Hin.
    + destruct T as [T|[]]. discriminate.
Qed.
(** And only messages that arrived: with C147, the acknowledged messages are among those received. *)
Theorem C148_received : forall a mid source d n, nrun start (a ++ Does Listener (PublishAck mid source) :: d) n ->
  exists conn msg, In (FromNode conn mid msg source) (arrived Listener a).
Proof.
  intros a mid source d n H. destruct (C148_acknowledged _ _ _ _ _ H) as (conn & msg & j & k & T & _). exists conn, msg.
  destruct (nrun_split _ _ _ _ _ _ H a _ d eq_refl) as (a0 & n1 & es & n2 & x & y & R & S & E & Ea).
  assert (Ar : forall b, In (FromNode conn mid msg source) (taken Listener a) -> In (FromNode conn mid msg source) (arrived Listener (a ++ b))).
  { intros b X. rewrite arrived_app, in_app_iff. left.
    assert (Y : taken Listener x = []).
    { assert (Y : taken Listener es = []).
      { destruct S; rewrite ?taken_ws, ?taken_does; try reflexivity. destruct x as [|? [|]]; discriminate. }
      rewrite E, taken_app in Y. now apply app_eq_nil in Y. }
    rewrite Ea, taken_app, Y, app_nil_r in X. rewrite Ea, arrived_app, (in_order _ _ _ _ _ R Listener), !in_app_iff. auto. }
  specialize (Ar []). rewrite app_nil_r in Ar. apply Ar. clear - T. induction a as [|e a IH]; [destruct T|].
  destruct T as [T|T]; [subst e; cbn; now left|]. destruct e; cbn; auto. destruct i; cbn; auto.
Qed.
(** Whatever a task does, it does for an item it has taken up. *)
Theorem C148_effects : forall a sd f d n, nrun start (a ++ Does sd f :: d) n ->
  match f with
  | PublishAck mid node => sd = Listener /\ exists conn msg, In (Takes (FromNode conn mid msg node)) a
  | RecordReceived mid => sd = Listener /\ In (Takes (AckFromNode mid)) a
  | RecordPending mid msg inform => sd = Actions /\ exists client, In (Takes (Resend client mid msg inform)) a
  | Publish conn mid msg inform => sd = Actions /\ In (Takes (Resend conn mid msg inform)) a
  end.
Proof.
  intros a sd f d n H. destruct (nrun_split _ _ _ _ _ _ H a _ d eq_refl) as (a0 & n1 & es & n2 & x & y & R & S & E & ->).
  pose proof (tinv_run _ _ _ _ _ R) as [T1 T2].
  assert (Hin : In (Does sd f) es) by (rewrite E, in_app_iff; right; now left). clear E.
  assert (X : exists i dup t, In (Takes i) a0 /\ side_of i = sd /\ In t (tasks_of dup i) /\ match t with Do g => f = g | Write _ _ u v => In f u \/ In f v end).
  { destruct S as [n1 es ws S|n1 i|n1 i q dup Q|n1 sd' q g r Q|n1 sd' q conn msg fa fb r Q|n1 sd' q conn msg fa fb r j Q J|n1 sd' q conn msg fa fb r j Q J].
    - apply in_map_iff in Hin. destruct Hin as (? & Hx & _). discriminate.
    - destruct Hin as [Hin|[]]. discriminate.
    - destruct Hin as [Hin|[]]. discriminate.
    - destruct Hin as [Hin|[]]. injection Hin as -> ->. destruct (T1 sd (Do f)) as (i & dup & A & B & T); [rewrite Q; now left|]. exists i, dup, (Do f). auto.
    - destruct Hin as [Hin|[]]. discriminate.
    - apply in_map_iff in Hin. destruct Hin as (g & Hf & Hin). injection Hf as -> ->.
      destruct (T2 sd j (Write conn msg fa fb)) as ((i & dup & A & B & T) & _); [now rewrite Q|]. exists i, dup, (Write conn msg fa fb). auto.
    - apply in_map_iff in Hin. destruct Hin as (g & Hf & Hin). injection Hf as -> ->.
      destruct (T2 sd j (Write conn msg fa fb)) as ((i & dup & A & B & T) & _); [now rewrite Q|]. exists i, dup, (Write conn msg fa fb). auto. }
  destruct X as (i & dup & t & A & <- & T & F).
  destruct i as [c m0 m src|m0|c m0 m inf|m0 inf]; cbn in T.
  - destruct dup; [destruct T|]. destruct T as [<-|[]]. destruct F as [[<-|[]]|[]]. split; [reflexivity|]. exists c, m. rewrite in_app_iff. auto.
  - destruct T as [<-|[]]. subst f. split; [reflexivity|]. rewrite in_app_iff. auto.
  - destruct T as [<-|[]]. destruct F as [[]|[<-|[<-|[]]]]; (split; [reflexivity|]); [exists c|]; rewrite in_app_iff; auto.
  - apply in_map_iff in T. destruct T as (c & <- & _). destruct F as [[]|[]].
Qed.
(** And when it takes up the next item, it has done what the last one asked for: an acknowledgement
    is recorded; a message to be resent has been written to its client's socket, or has been
    recorded as pending and published; every client to be informed of a loss has been sent the
    event, if it is here. *)
Theorem C148_done : forall a i m i' d n, nrun start (a ++ Takes i :: m ++ Takes i' :: d) n -> side_of i' = side_of i -> taken (side_of i) m = [] ->
  match i with
  | FromNode conn mid msg source => True
  | AckFromNode mid => In (Does Listener (RecordReceived mid)) m
  | Resend client mid msg inform =>
      (exists j k, In (Ws (EDeliver j k msg)) m) \/
      (In (Does Actions (RecordPending mid msg inform)) m /\ In (Does Actions (Publish client mid msg inform)) m)
  | LostMessage mid inform => forall c, In c inform -> exists j, In (Ws (ESend j c (lost_event mid))) m
  end.
Proof.
  intros a i m i' d n H Sd Tk. destruct (done_with _ _ _ _ _ _ _ _ _ H Sd Tk) as (dup & F).
  destruct i as [c m0 x src|m0|c m0 x inf|m0 inf]; cbn in F |- *; [exact Logic.I|..].
  - now apply Forall_inv in F.
  - apply Forall_inv in F. destruct F as (j & _ & [(k & D & _)|B]); [left; eauto|right; split; apply B; cbn; auto].
  - intros c Hc. rewrite Forall_forall in F. destruct (F (Write c (lost_event m0) [] [])) as (j & S & _); [|eauto].
    apply in_map_iff. eauto.
Qed.
End S.

Notation nrun0 := (nrun p0 (chars "event") r0).
Lemma lift n tr s : run p0 (chars "event") r0 (n_ws n) tr s -> nrun0 n (map Ws tr) (mk_node s (n_loop n)).
Proof.
  intros H. remember (n_ws n) as s0 eqn:E. induction H as [|s0 tr s1 es s2 H IH Hs]; subst.
  - replace n with (mk_node (n_ws n) (n_loop n)) at 1 by (now destruct n). apply N_refl.
  - rewrite map_app. eapply N_step; [apply IH; reflexivity|]. exact (N_ws _ _ _ (mk_node s1 (n_loop n)) es s2 Hs).
Qed.
(** A silent client, "x", and a task that has nothing to do; a message for it arrives from another
    node, waits, and is acknowledged after the client has sent a ping. *)
Example C147_nonvacuous : exists tr n, nrun0 start tr n /\ n_loop n Listener = mk_loop [] [] None /\ n_loop n Actions = mk_loop [] [] None /\
  s_reg (n_ws n) (chars "x") = Some 0 /\ se_phase (s_ses (n_ws n) 0) = Reading /\
  first_for (FromNode (chars "x") (chars "1") (chars "m") (chars "node")) (chars "x") /\
  first_for (LostMessage (chars "2") [chars "x"]) (chars "x") /\
  exists tr1 n1, nrun0 n tr1 n1 /\ waits_for n1 Listener 0 /\ se_phase (s_ses (n_ws n1) 0) = Reading /\
  exists n2, nrun0 n1 (map Ws [EFrame 0 FPing; EDeliver 0 0 (chars "m"); EFrame 0 FPing] ++ [Does Listener (PublishAck (chars "1") (chars "node"))]) n2.
Proof.
  assert (X := R_refl p0 (chars "event") r0 init).
  go X (S_open _ _ _ _ (chars "x")). go X (S_add _ _ _ _ 0). go X (S_ask _ _ _ _ 0). go X (S_lock _ _ _ _ 0).
  apply (lift start) in X. eexists _, _. split; [exact X|]. split; [reflexivity|]. split; [reflexivity|]. split; [reflexivity|]. split; [reflexivity|].
  split; [reflexivity|]. split; [eexists; reflexivity|].
  match type of X with StallModel.nrun _ _ _ _ _ ?n => set (n0 := n) end.
  pose (i := FromNode (chars "x") (chars "1") (chars "m") (chars "node")).
  assert (Y := N_step _ _ _ _ _ _ _ _ (N_refl p0 (chars "event") r0 n0) (N_arrives _ _ _ n0 i)).
  match type of Y with StallModel.nrun _ _ _ _ _ ?n => assert (Y1 := N_step _ _ _ _ _ _ _ _ Y (N_takes _ _ _ n i [] false eq_refl)) end. clear Y.
  match type of Y1 with StallModel.nrun _ _ _ _ _ ?n => assert (Y2 := N_step _ _ _ _ _ _ _ _ Y1 (N_write _ _ _ n Listener [] _ _ _ _ _ eq_refl)) end. clear Y1.
  match type of Y2 with StallModel.nrun _ _ _ _ _ ?n => assert (Z := R_refl p0 (chars "event") r0 (n_ws n)) end.
  go Z (S_found _ _ _ _ 0 (chars "x") (chars "m") 0). apply lift in Z. pose proof (nrun_app _ _ _ _ _ _ _ _ Y2 Z) as Y3. clear Y2 Z.
  eexists _, _. split; [exact Y3|]. split; [eexists _, _, _; split; reflexivity|]. split; [reflexivity|].
  match type of Y3 with StallModel.nrun _ _ _ _ _ ?n => set (n3 := n) end.
  assert (W := R_refl p0 (chars "event") r0 (n_ws n3)).
  go W (S_skip _ _ _ _ 0 FPing). go W (S_deliver _ _ _ _ 0 0). go W (S_ask _ _ _ _ 0). go W (S_lock _ _ _ _ 0). go W (S_skip _ _ _ _ 0 FPing). apply lift in W.
  match type of W with StallModel.nrun _ _ _ _ _ ?n => pose proof (N_step _ _ _ _ _ _ _ _ W (N_written _ _ _ n Listener [] _ _ _ _ _ 0 eq_refl eq_refl)) as V end.
  eexists. exact V.
Qed.
Example C148_nonvacuous : exists a d n, nrun0 start (a ++ Does Listener (PublishAck (chars "1") (chars "node")) :: d) n.
Proof.
  destruct C147_nonvacuous as (tr & n & R & _ & _ & _ & _ & _ & _ & tr1 & n1 & R1 & _ & _ & n2 & R2).
  pose proof (nrun_app _ _ _ _ _ _ _ _ R (nrun_app _ _ _ _ _ _ _ _ R1 R2)) as H. rewrite !app_assoc in H. eexists _, [], n2. exact H.
Qed.

(** Two items that are taken up one after the other: a message to be resent to a client that is not
    here, and a loss. *)
Example C148_done_nonvacuous : exists m n,
  nrun0 start ([Arrives (Resend (chars "y") (chars "1") (chars "m") []); Arrives (LostMessage (chars "1") [])] ++
    Takes (Resend (chars "y") (chars "1") (chars "m") []) :: m ++ Takes (LostMessage (chars "1") []) :: []) n /\ taken Actions m = [].
Proof.
  pose (i1 := Resend (chars "y") (chars "1") (chars "m") []). pose (i2 := LostMessage (chars "1") []).
  assert (Y := N_step _ _ _ _ _ _ _ _ (N_refl p0 (chars "event") r0 start) (N_arrives _ _ _ start i1)).
  match type of Y with StallModel.nrun _ _ _ _ _ ?n => assert (Y1 := N_step _ _ _ _ _ _ _ _ Y (N_arrives _ _ _ n i2)) end. clear Y.
  match type of Y1 with StallModel.nrun _ _ _ _ _ ?n => assert (Y2 := N_step _ _ _ _ _ _ _ _ Y1 (N_takes _ _ _ n i1 [i2] false eq_refl)) end. clear Y1.
  match type of Y2 with StallModel.nrun _ _ _ _ _ ?n => assert (Y3 := N_step _ _ _ _ _ _ _ _ Y2 (N_write _ _ _ n Actions [i2] _ _ _ _ _ eq_refl)) end. clear Y2.
  match type of Y3 with StallModel.nrun _ _ _ _ _ ?n => assert (Z := R_refl p0 (chars "event") r0 (n_ws n)) end.
  go Z (S_not_found _ _ _ _ 0 (chars "y") (chars "m")). apply lift in Z. pose proof (nrun_app _ _ _ _ _ _ _ _ Y3 Z) as Y4. clear Y3 Z.
  match type of Y4 with StallModel.nrun _ _ _ _ _ ?n => assert (Y5 := N_step _ _ _ _ _ _ _ _ Y4 (N_not_here _ _ _ n Actions [i2] _ _ _ _ _ 0 eq_refl eq_refl)) end. clear Y4.
  match type of Y5 with StallModel.nrun _ _ _ _ _ ?n => assert (Y6 := N_step _ _ _ _ _ _ _ _ Y5 (N_takes _ _ _ n i2 [] false eq_refl)) end. clear Y5.
  eexists [_; _; _], _. split; [exact Y6|reflexivity].
Qed.

Print Assumptions C147_stalled_refuted.
Print Assumptions C147_others_refuted.
Print Assumptions C147_resumes.
Print Assumptions C147_order.
Print Assumptions C148_acknowledged.
Print Assumptions C148_received.
Print Assumptions C148_effects.
Print Assumptions C148_done.
