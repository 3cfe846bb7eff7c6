(** Properties of WebSocket sessions *)
From Verif Require Import Base Value Bytes Chars WsModel WsSpec WsProofs.
Local Open Scope list_scope.

Section Messages.
Variable parse : text -> option value.
Variable key : text.
Variable routes : text -> bool.
Notation run := (run parse key routes).
Notation step := (step parse key routes).
Notation asks := (asks parse key).

(** C43: a handler is called only for the frame just received, which asks for this call, and
    the route has a handler. *)
Theorem C43_call a k c d s : run init (a ++ ECall k c :: d) s ->
  exists a' f, a = a' ++ [EFrame k f] /\ (bytes_frame f -> asks f c) /\ routes (c_route c) = true.
Proof.
  intros H. destruct (run_split _ _ _ _ _ _ H a _ d eq_refl) as (a0 & s1 & es & s2 & x & y & d0 & R1 & S & _ & E & -> & _).
  destruct S; destruct x as [|e1 [|e2 [|]]]; cbn in E; try discriminate. injection E as <- -> -> <-.
  assert (R : routes (c_route c) = true).
  { destruct f as [t|l| | |]; cbn in H1; try discriminate.
    - destruct (resolve_route parse key t) as [[r v]|]; [|discriminate]. destruct (routes r) eqn:X; [|discriminate]. now injection H1 as <-.
    - destruct (resolve_binary_route l) as [[[r p]|]|]; try discriminate. destruct (routes r) eqn:X; [|discriminate]. now injection H1 as <-. }
  exists a0, f. split; [reflexivity|]. split; [|exact R]. intros B. now apply (process_call parse key routes f c B) in H1.
Qed.
(** Each frame that asks for a call gets it at once. *)
Theorem C43_dispatch a k f d s c : run init (a ++ EFrame k f :: d) s -> bytes_frame f -> asks f c -> routes (c_route c) = true ->
  exists d', d = ECall k c :: d'.
Proof.
  intros H B A R. destruct (run_split _ _ _ _ _ _ H a _ d eq_refl) as (a0 & s1 & es & s2 & x & y & d0 & R1 & S & _ & E & _ & ->).
  assert (P : process parse key routes f = Call c) by (apply process_call; auto).
  destruct S; destruct x as [|e1 [|e2 [|]]]; cbn in E; try discriminate; injection E; intros; subst; try congruence.
  match goal with X : process _ _ _ f = Call ?c' |- _ => assert (c' = c) by congruence; subst c' end. cbn. eauto.
Qed.
(** Any other frame but close, and an empty binary one, leaves the session as it is. *)
Lemma waiting s tr s' k : run s tr s' -> winv s -> (se_phase (s_ses s k) = Pausing \/ se_phase (s_ses s k) = Asking \/ se_phase (s_ses s k) = Reading) ->
  (forall f, ~ In (EFrame k f) tr) -> ~ In (EGone k) tr -> (se_phase (s_ses s' k) = Pausing \/ se_phase (s_ses s' k) = Asking \/ se_phase (s_ses s' k) = Reading).
Proof.
  induction 1 as [|s tr s1 es s2 H IH Hs]; intros I P N1 N2; [exact P|].
  destruct IH as [P1|[P1|P1]]; auto; [intros f X; apply (N1 f); rewrite in_app_iff; auto|intros X; apply N2; rewrite in_app_iff; auto| | |];
    (pose proof (run_winv _ _ _ _ _ _ H I) as I1; assert (L : k < s_next s1) by (apply winv_lt; auto; congruence); destruct (phase_step _ _ _ _ _ _ k Hs L) as (_ & _ & [X|X]); [rewrite X; auto|rewrite P1 in X; destruct (se_phase (s_ses s2 k)) as [| | | | |c [w|]| |]; try destruct X; auto]).
  - destruct H0 as [_ ->]. elim (N1 x). rewrite in_app_iff. right. now left.
  - destruct H1 as [Y|Y]; [elim (N1 FClose); rewrite in_app_iff; auto|elim N2; rewrite in_app_iff; auto].
  - elim (N1 (FBinary [])). rewrite in_app_iff. auto.
Qed.
Theorem C43_drop a k f d s : run init (a ++ EFrame k f :: d) s -> bytes_frame f -> (forall c, asks f c -> routes (c_route c) = false) -> f <> FClose -> f <> FBinary [] ->
  (forall g, ~ In (EFrame k g) d) -> ~ In (EGone k) d -> alive (se_phase (s_ses s k)) /\ (forall c d', d <> ECall k c :: d').
Proof.
  intros H B A N1 N2 N3 N4. destruct (run_split _ _ _ _ _ _ H a _ d eq_refl) as (a0 & s1 & es & s2 & x & y & d0 & R1 & S & R2 & E & _ & ->).
  pose proof (run_winv _ _ _ _ _ _ R1 winv_init) as I1. pose proof (winv_step _ _ _ _ _ _ I1 S) as I2.
  assert (P2 : se_phase (s_ses s2 k) = Pausing /\ y = []).
  { destruct S; destruct x as [|e1 [|e2 [|]]]; cbn in E; try discriminate; injection E; intros; subst.
    - exfalso. match goal with X : process _ _ _ _ = Call _ |- _ => apply process_call in X; [|exact B]; destruct X as [X1 X2]; rewrite (A _ X1) in X2; discriminate end.
    - cbn. rewrite upd_eq. auto.
    - exfalso. match goal with X : process _ _ _ _ = Break |- _ => apply process_break in X; auto end.
    - exfalso. match goal with X : process _ _ _ _ = Crash |- _ => apply process_crash in X; auto end. }
  destruct P2 as [P2 ->]. cbn in N3, N4. destruct (waiting _ _ _ k R2 I2 (or_introl P2) N3 N4) as [X|[X|X]]; rewrite X; (split; [exact Logic.I|]); intros c d' Y; cbn in Y; subst d0.
  all: destruct (run_split _ _ _ _ _ _ R2 [] _ d' eq_refl) as (a1 & t1 & es1 & t2 & x1 & y1 & d1 & _ & S1 & _ & E1 & E2 & _); symmetry in E2; apply app_eq_nil in E2; destruct E2 as [-> ->]; destruct S1; discriminate E1.
Qed.
(** A close frame ends the session, and only that or the loss of the client does. *)
Theorem C43_close a k d s : run init (a ++ EFrame k FClose :: d) s -> exists d', d = EEnd k :: d'.
Proof.
  intros H. destruct (run_split _ _ _ _ _ _ H a _ d eq_refl) as (a0 & s1 & es & s2 & x & y & d0 & R1 & S & R2 & E & _ & ->).
  destruct S; destruct x as [|e1 [|e2 [|]]]; cbn in E; try discriminate; injection E; intros; subst; try discriminate. cbn. eauto.
Qed.
Theorem C43_end a k d s : run init (a ++ EEnd k :: d) s -> exists a', a = a' ++ [EFrame k FClose] \/ a = a' ++ [EGone k].
Proof.
  intros H. destruct (run_split _ _ _ _ _ _ H a _ d eq_refl) as (a0 & s1 & es & s2 & x & y & d0 & R1 & S & R2 & E & -> & _).
  destruct S; destruct x as [|e1 [|e2 [|]]]; cbn in E; try discriminate; injection E; intros; subst; try discriminate; exists a0; auto.
  left. match goal with X : process _ _ _ _ = Break |- _ => apply process_break in X; now rewrite X end.
Qed.
(** After the end no frame of the session is handled. *)
Theorem C43_silent a k d s e : run init (a ++ EEnd k :: d) s -> In e d -> (forall f, e <> EFrame k f) /\ (forall c, e <> ECall k c) /\ e <> EEnd k.
Proof.
  intros H Hin. apply in_split in Hin. destruct Hin as (d1 & d2 & ->).
  assert (H' : run init ((a ++ EEnd k :: d1) ++ e :: d2) s) by (rewrite <- app_assoc; exact H).
  destruct (run_split _ _ _ _ _ _ H' _ _ _ eq_refl) as (a0 & s1 & es & s2 & x & y & d0 & R1 & S & R2 & E & Ea & _).
  assert (N : (exists f, e = EFrame k f) \/ (exists c, e = ECall k c) \/ e = EEnd k -> False).
  { intros X. assert (Rd : se_phase (s_ses s1 k) = Reading /\ ((exists f, e = EFrame k f) -> x = []) /\ ((exists c, e = ECall k c) \/ e = EEnd k -> exists e', x = [e'] /\ e' <> EEnd k)).
    { destruct S; destruct x as [|e1 [|e2 [|]]]; cbn in E; try discriminate; injection E; intros; subst;
        repeat match goal with X : _ \/ _ |- _ => destruct X | X : exists _, _ |- _ => destruct X end; try discriminate;
        match goal with X : _ = _ |- _ => injection X; intros; subst end; (split; [assumption|]); split; intros Y; repeat match goal with X : _ \/ _ |- _ => destruct X | X : exists _, _ |- _ => destruct X end; try discriminate; try reflexivity; eexists; (split; [reflexivity|discriminate]). }
    destruct Rd as (Rd & X1 & X2). assert (In (EEnd k) a0).
    { destruct X as [X|X].
      - rewrite (X1 X), app_nil_r in Ea. subst a0. rewrite in_app_iff. right. now left.
      - destruct (X2 X) as (e' & -> & Ne). assert (Hi : In (EEnd k) (a0 ++ [e'])) by (rewrite <- Ea, in_app_iff; right; now left). rewrite in_app_iff in Hi. destruct Hi as [Hi|[Hi|[]]]; [exact Hi|congruence]. }
    apply (ended _ _ _ _ _ _ R1) in H0. destruct H0 as [_ H0]. congruence. }
  split; [intros f ->; apply N; eauto|split; [intros c ->; apply N; eauto|intros ->; apply N; auto]].
Qed.

(** C42: a binary message made of the length of the route, the route and a payload reaches the
    handler of this route with this payload, and a binary call comes only from such a message. *)
Theorem C42_route a k r p d s : run init (a ++ EFrame k (FBinary (N.of_nat (length (utf8 r)) :: utf8 r ++ p)) :: d) s ->
  Forall scalar_value r -> length (utf8 r) <= 255 -> Forall (fun b => (b < 256)%N) p -> routes r = true -> exists d', d = ECall k (mk_call r (BinaryBody p)) :: d'.
Proof.
  intros H Sr L Bp R. eapply C43_dispatch; [exact H| |constructor; now repeat split|exact R]. cbn. constructor; [lia|]. apply Forall_app. split; [now apply utf8_bytes|exact Bp].
Qed.
Theorem C42_exact a k f r p d s : run init (a ++ EFrame k f :: ECall k (mk_call r (BinaryBody p)) :: d) s -> bytes_frame f ->
  f = FBinary (N.of_nat (length (utf8 r)) :: utf8 r ++ p) /\ length (utf8 r) <= 255.
Proof.
  intros H B. assert (H' : run init ((a ++ [EFrame k f]) ++ ECall k (mk_call r (BinaryBody p)) :: d) s) by (rewrite <- app_assoc; exact H).
  destruct (C43_call _ _ _ _ _ H') as (a' & f' & E & A & _). apply app_inj_tail in E. destruct E as [_ E]. injection E as <-. specialize (A B). inversion A as [|l r' p' (_ & L & E')]; subst. auto.
Qed.
Theorem C42_drop a k l d s : run init (a ++ EFrame k (FBinary l) :: d) s -> Forall (fun b => (b < 256)%N) l -> l <> [] -> (forall r p, routes r = true -> ~ binary_for r p l) ->
  (forall g, ~ In (EFrame k g) d) -> ~ In (EGone k) d -> alive (se_phase (s_ses s k)) /\ (forall c d', d <> ECall k c :: d').
Proof.
  intros H B Nl N N3 N4. eapply C43_drop; eauto; try discriminate; [|congruence]. intros c A. inversion A as [|? r p X]; subst. cbn. destruct (routes r) eqn:R; [|reflexivity]. now apply N in X.
Qed.

(** C44: a session that has started and not ended is registered under its id, when no two
    sessions share an id. *)
Theorem C44_registered tr s k : run init tr s -> distinct_ids s -> alive (se_phase (s_ses s k)) -> s_reg s (se_id (s_ses s k)) = Some k.
Proof. intros H D A. now apply (registered _ _ _ _ _ H D k). Qed.
(** After its end it is not, and nothing else is ever registered under the id of another session. *)
Theorem C44_removed tr s k id : run init tr s -> In (EEnd k) tr -> s_reg s id <> Some k.
Proof.
  intros H E R. destruct (ended _ _ _ _ _ _ H E) as [_ P]. pose proof (run_winv _ _ _ _ _ _ H winv_init) as I. destruct (w_reg s I id k R) as [_ [X|X]]; rewrite P in X; [destruct X|discriminate].
Qed.
Theorem C44_own_id tr s k id : run init tr s -> s_reg s id = Some k -> In (EOpen k id) tr /\ ~ In (EEnd k) tr.
Proof.
  intros H R. pose proof (run_winv _ _ _ _ _ _ H winv_init) as I. destruct (w_reg s I id k R) as [X Y]. split; [|intros Z; now apply (C44_removed tr s k id H Z)]. subst id. apply (all_opened _ _ _ _ _ _ H). apply winv_lt; [exact I|].
  intros Z. rewrite Z in Y. destruct Y as [Y|Y]; [exact Y|discriminate].
Qed.

(** C71: while a session waits for its client nothing is written to it, whoever sends. *)
Theorem C71_blocked_refuted tr s k tr' s' : run init tr s -> se_phase (s_ses s k) = Reading -> run s tr' s' ->
  (forall f, ~ In (EFrame k f) tr') -> ~ In (EGone k) tr' -> forall j m, ~ In (EDeliver j k m) tr'.
Proof. intros H P R N1 N2. exact (proj2 (reading_run _ _ _ _ _ _ k (run_winv _ _ _ _ _ _ H winv_init) P R N1 N2)). Qed.
(** Messages that wait when a frame arrives are written before the next one is read. *)
Theorem C71_window tr s k j m f d g s' : run init tr s -> s_jobs s j = Queued k m -> se_phase (s_ses s k) = Reading -> run s (EFrame k f :: d ++ [EFrame k g]) s' -> In (EDeliver j k m) d.
Proof.
  intros H J P R. pose proof (run_winv _ _ _ _ _ _ H winv_init) as I.
  (* the first frame *)
  destruct (run_split _ _ _ _ _ _ R [] _ _ eq_refl) as (a0 & s1 & es & s2 & x & y & d0 & R1 & S & R2 & E & Ea & Ed). symmetry in Ea. apply app_eq_nil in Ea. destruct Ea as [-> ->]. cbn in E.
  assert (P1 : se_phase (s_ses s1 k) = Reading) by (refine (proj1 (reading_run _ _ _ s [] s1 k I P R1 _ _)); intros; intros []).
  pose proof (run_winv _ _ _ _ _ _ R1 I) as I1. pose proof (winv_step _ _ _ _ _ _ I1 S) as I2.
  assert (J1 : s_jobs s1 j = Queued k m).
  { clear - R1 J I. remember [] as t eqn:Et. induction R1 as [|s t s1 es s2 R IH S]; [exact J|]. apply app_eq_nil in Et. destruct Et as [-> ->]. specialize (IH J I eq_refl).
    destruct (queued_step _ _ _ _ _ _ _ _ _ (run_winv _ _ _ _ _ _ R I) S IH) as [X|(_ & X & _)]; [exact X|discriminate]. }
  pose proof (w_queued s1 I1 j k m J1) as Q1. destruct (w_head s1 I1 k (or_introl P1)) as [q Q]. rewrite Q in Q1. destruct Q1 as [Q1|Q1]; [discriminate|]. apply in_split in Q1. destruct Q1 as (l & r & ->).
  assert (Nl : ~ In WSession l). { pose proof (w_count s1 I1 k) as C. rewrite Q, P1 in C. change (Datatypes.S (nses (l ++ WSend j :: r)) = 1) in C. rewrite nses_app in C. apply (proj1 (nses_0 parse key routes l)). injection C as C. destruct (nses l); [reflexivity|discriminate]. }
  assert (L : k < s_next s1) by (apply winv_lt; auto; congruence).
  assert (J2 : s_jobs s2 j = Queued k m). { destruct (queued_step _ _ _ _ _ _ _ _ _ I1 S J1) as [X|(_ & X & _)]; [exact X|]. rewrite X in E. discriminate. }
  assert (B2 : (before s2 k j m \/ behind s2 k j m) /\ forall e, In e y -> forall f', e <> EFrame k f').
  { assert (U : forall p, before (set_ses s1 k (release (to_phase (s_ses s1 k) p))) k j m \/ p = Reading \/ exists c w, p = Working c w).
    { intros p. destruct p; try (right; eauto; fail); left; (split; [exact J1|]); exists l, r; (split; [exact Nl|]); cbn; rewrite upd_eq; cbn; rewrite Q; (split; [reflexivity|]); intros [X|(? & ? & X)]; discriminate. }
    clear - S E Q J1 J2 Nl P1. destruct S; try discriminate E; injection E; intros; subst; (split; [|intros e He f'; cbn in He; intuition (subst; discriminate)]).
    - right. split; [exact J1|]. exists l, r. split; [exact Nl|]. cbn. rewrite upd_eq. cbn. rewrite Q. eauto.
    - left. split; [exact J1|]. exists l, r. split; [exact Nl|]. cbn. rewrite upd_eq. cbn. rewrite Q. split; [reflexivity|]. intros [X|(? & ? & X)]; discriminate.
    - left. split; [exact J1|]. exists l, r. split; [exact Nl|]. cbn. rewrite upd_eq. cbn. rewrite Q. split; [reflexivity|]. intros [X|(? & ? & X)]; discriminate.
    - left. split; [exact J1|]. exists l, r. split; [exact Nl|]. cbn. rewrite upd_eq. cbn. rewrite Q. split; [reflexivity|]. intros [X|(? & ? & X)]; discriminate. }
  destruct B2 as [B2 Ny].
  assert (Ed0 : exists d1, d0 = d1 ++ [EFrame k g] /\ d = y ++ d1).
  { destruct d0 as [|e0 d0 _] using rev_ind; [rewrite app_nil_r in Ed; exfalso; apply (Ny (EFrame k g)) with g; [rewrite <- Ed, in_app_iff; right; now left|reflexivity]|].
    rewrite app_assoc in Ed. apply app_inj_tail in Ed. destruct Ed as [-> <-]. eauto. }
  destruct Ed0 as (d1 & -> & ->). rewrite in_app_iff. right.
  destruct (run_split _ _ _ _ _ _ R2 d1 _ [] eq_refl) as (a0 & s3 & es3 & s4 & x3 & y3 & d3 & R3 & S3 & _ & E3 & -> & _).
  assert (P3 : se_phase (s_ses s3 k) = Reading) by (apply (frame_reading _ _ _ _ _ _ _ g S3); rewrite E3, in_app_iff; right; now left).
  rewrite in_app_iff. left. clear - R3 I2 B2 P3.
  assert (X : before s3 k j m \/ behind s3 k j m \/ In (EDeliver j k m) a0).
  { clear P3. induction R3 as [|s tr s1 es s2' R IH S]; [tauto|]. destruct (IH I2 B2) as [X|[X|X]]; [| |rewrite in_app_iff; auto].
    - destruct (before_step _ _ _ _ _ _ k j m (run_winv _ _ _ _ _ _ R I2) S (or_introl X)) as [Y|[Y|Y]]; auto. rewrite in_app_iff, Y. cbn. auto.
    - destruct (before_step _ _ _ _ _ _ k j m (run_winv _ _ _ _ _ _ R I2) S (or_intror X)) as [Y|[Y|Y]]; auto. rewrite in_app_iff, Y. cbn. auto. }
  destruct X as [(_ & l & r & _ & _ & X)|[(_ & l & r & _ & _ & c & w & X)|X]]; [elim X; auto|congruence|exact X].
Qed.
(** C72: a handler that sends a message to the client it works for, and waits for it, never
    returns; nothing is ever written to that client or read from it again. *)
Theorem C72_reply_refuted tr s k c j m tr' s' : run init tr s -> se_phase (s_ses s k) = Working c (Some j) -> s_jobs s j = Looking (se_id (s_ses s k)) m -> run s tr' s' -> distinct_ids s' ->
  ~ In (EReturn k) tr' /\ (forall f, ~ In (EFrame k f) tr') /\ (forall j' m', ~ In (EDeliver j' k m') tr') /\ (forall k' m', ~ In (EDeliver j k' m') tr').
Proof. intros H P J R D. destruct (stuck_run _ _ _ _ _ _ _ _ _ _ _ H P J R D) as (_ & _ & A & B & C & E). auto. Qed.

(** C73: the frames of a client are handled one after the other: a frame is read only after the
    handler called for an earlier one has returned. *)
Theorem C73_sequential a k c m f d s : run init (a ++ ECall k c :: m ++ EFrame k f :: d) s -> In (EReturn k) m.
Proof.
  intros H. destruct (run_split _ _ _ _ _ _ H a _ _ eq_refl) as (a0 & s1 & es & s2 & x & y & d0 & R1 & S & R2 & E & -> & Ed).
  pose proof (run_winv _ _ _ _ _ _ R1 winv_init) as I1. pose proof (winv_step _ _ _ _ _ _ I1 S) as I2.
  assert (P2 : (exists w, se_phase (s_ses s2 k) = Working c w) /\ y = []) by (destruct S; destruct x as [|e1 [|e2 [|]]]; cbn in E; try discriminate; injection E; intros; subst; cbn; rewrite upd_eq; cbn; eauto).
  destruct P2 as [[w P2] ->]. cbn in Ed. symmetry in Ed. destruct (run_split _ _ _ _ _ _ R2 m _ d Ed) as (b0 & s3 & es3 & s4 & x3 & y3 & d3 & R3 & S3 & _ & E3 & -> & _).
  assert (P3 : se_phase (s_ses s3 k) = Reading) by (apply (frame_reading _ _ _ _ _ _ _ f S3); rewrite E3, in_app_iff; right; now left).
  rewrite in_app_iff. left. clear - R3 I2 P2 P3.
  assert (X : In (EReturn k) b0 \/ (exists w, se_phase (s_ses s3 k) = Working c w) \/ se_phase (s_ses s3 k) = Crashed).
  { clear P3. induction R3 as [|s tr s1 es s2 R IH S]; [eauto|]. rewrite in_app_iff. pose proof (run_winv _ _ _ _ _ _ R I2) as I1. destruct (IH I2 P2) as [X|[[w' X]|X]]; auto.
    - assert (L : k < s_next s1) by (apply winv_lt; auto; congruence). destruct (phase_step _ _ _ _ _ _ k S L) as (_ & _ & [Y|Y]); [right; left; exists w'; congruence|].
      rewrite X in Y. destruct (se_phase (s_ses s2 k)) as [| | | | |c' [w''|]| |] eqn:P; try (destruct w'; destruct Y; fail); auto.
      + left. right. destruct w'; tauto.
      + right. left. exists (Some w''). destruct w'; [destruct Y|]. clear - S X P. destruct S; cbn in P; try congruence.
        all: try (destruct (Nat.eq_dec k k0) as [->|N]; [rewrite upd_eq in P; cbn in P; try congruence|rewrite upd_neq in P by exact N; congruence]).
        destruct (Nat.eq_dec k (s_next s)) as [->|N]; [rewrite upd_eq in P; discriminate|rewrite upd_neq in P by exact N; congruence].
    - assert (L : k < s_next s1) by (apply winv_lt; auto; congruence). destruct (phase_step _ _ _ _ _ _ k S L) as (_ & _ & [Y|Y]); [right; right; congruence|]. rewrite X in Y. destruct Y. }
  destruct X as [X|[[w' X]|X]]; [exact X|congruence|congruence].
Qed.

(** A message is written at most once, to a session opened under the id it was sent to. *)
Lemma job_step s es s' j : step s es s' ->
  (s_jobs s' j = s_jobs s j /\ forall k m, ~ In (EDeliver j k m) es) \/
  (exists id m, j = s_next_job s /\ s_jobs s' j = Looking id m /\ es = [ESend j id m] /\ s_next_job s' = S j) \/
  (exists id m k, s_jobs s j = Looking id m /\ s_reg s id = Some k /\ s_jobs s' j = Queued k m /\ es = []) \/
  (s_jobs s' j = NotHere /\ es = [] /\ exists id m, s_jobs s j = Looking id m) \/
  (exists k m, s_jobs s j = Queued k m /\ s_jobs s' j = Sent /\ es = [EDeliver j k m]).
Proof.
  intros H. destruct H as [s id0|s i P|s i P|s i q' P Q|s i f c P F|s i f P F|s i f P F|s i f P F|s i P|s i c w P X|s i c P|s i c id0 m0 P|s id0 m0|s j0 id0 m0 i J R|s j0 id0 m0 J R|s j0 i m0 q' J Q].
  12,13: destruct (Nat.eq_dec j (s_next_job s)) as [->|N];
    [right; left; exists id0, m0; cbn; rewrite upd_eq; auto|left; cbn; rewrite upd_neq by exact N; split; [reflexivity|intros k m [X|[]]; discriminate]].
  12,13,14: destruct (Nat.eq_dec j j0) as [->|N]; [|left; cbn; rewrite upd_neq by exact N; split; [reflexivity|intros k m X; cbn in X; intuition congruence]]; cbn; rewrite upd_eq.
  1-11: left; (split; [reflexivity|intros k m Z; cbn in Z; intuition discriminate]).
  - right. right. left. exists id0, m0, i. auto.
  - right. right. right. left. eauto.
  - right. right. right. right. exists i, m0. auto.
Qed.
Lemma sends tr s : run init tr s -> forall j,
  (forall id m, s_jobs s j = Looking id m -> In (ESend j id m) tr) /\
  (forall k m, s_jobs s j = Queued k m -> In (ESend j (se_id (s_ses s k)) m) tr /\ k < s_next s) /\
  (forall k m, In (EDeliver j k m) tr -> s_jobs s j = Sent).
Proof.
  intros H. remember init as s0 eqn:E0. induction H as [|s tr s1 es s2 H IH Hs]; subst; intros j; [repeat split; try discriminate; contradiction|].
  destruct (IH eq_refl j) as (A & B & C). clear IH. pose proof (run_winv _ _ _ _ _ _ H winv_init) as I.
  assert (Id : forall k, k < s_next s1 -> se_id (s_ses s2 k) = se_id (s_ses s1 k) /\ k < s_next s2) by (intros k L; destruct (phase_step _ _ _ _ _ _ k Hs L) as (X & Y & _); auto).
  destruct (job_step _ _ _ j Hs) as [(X & Y)|[(id & m & N & X & -> & _)|[(id & m & k & J & R & X & ->)|[(X & -> & id & m & J)|(k & m & J & X & ->)]]]].
  - rewrite X. split; [|split].
    + intros id m J. rewrite in_app_iff. left. now apply A.
    + intros k m J. destruct (B k m J) as [B1 L]. destruct (Id k L) as [-> L2]. rewrite in_app_iff. auto.
    + intros k m Hin. rewrite in_app_iff in Hin. destruct Hin as [Hin|Hin]; [now apply (C k m)|now apply Y in Hin].
  - rewrite X. split; [|split]; try discriminate.
    + intros id' m' [= <- <-]. rewrite in_app_iff. right. now left.
    + intros k' m' Hin. rewrite in_app_iff in Hin. destruct Hin as [Hin|[Hin|[]]]; [|discriminate]. apply C in Hin. rewrite (w_jobs s1 I j) in Hin; [discriminate|lia].
  - rewrite X. destruct (w_reg s1 I id k R) as [E S0]. assert (L : k < s_next s1) by (apply winv_lt; [exact I|]; intros Z; rewrite Z in S0; destruct S0 as [S0|S0]; [exact S0|discriminate]).
    split; [|split]; try discriminate.
    + intros k' m' [= <- <-]. destruct (Id k L) as [-> L2]. rewrite app_nil_r, E. auto.
    + intros k' m' Hin. rewrite app_nil_r in Hin. apply C in Hin. congruence.
  - rewrite X. split; [|split]; try discriminate. intros k' m' Hin. rewrite app_nil_r in Hin. apply C in Hin. congruence.
  - rewrite X. split; [|split]; try discriminate. reflexivity.
Qed.
Theorem C71_addressee a j k m d s : run init (a ++ EDeliver j k m :: d) s ->
  (exists id, In (ESend j id m) a /\ In (EOpen k id) a) /\ (forall k' m', ~ In (EDeliver j k' m') a) /\ (forall k' m', ~ In (EDeliver j k' m') d).
Proof.
  intros H.
  assert (P : forall a j k m d s, run init (a ++ EDeliver j k m :: d) s -> (exists id, In (ESend j id m) a /\ In (EOpen k id) a) /\ (forall k' m', ~ In (EDeliver j k' m') a)).
  { clear. intros a j k m d s H. destruct (run_split _ _ _ _ _ _ H a _ d eq_refl) as (a0 & s1 & es & s2 & x & y & d0 & R1 & S & _ & E & -> & _).
    assert (Hin : In (EDeliver j k m) es) by (rewrite E, in_app_iff; right; now left). destruct (deliver_job _ _ _ _ _ _ _ _ _ S Hin) as [J _].
    destruct (job_step _ _ _ j S) as [(X & Y)|[(id & m0 & N & X & -> & _)|[(id & m0 & k0 & J0 & R & X & ->)|[(X & -> & id & m0 & J0)|(k0 & m0 & J0 & X & ->)]]]]; try (destruct Hin as [Hin|[]]; discriminate); try (destruct Hin; fail); [now apply Y in Hin|].
    destruct x as [|? [|]]; try discriminate E. rewrite app_nil_r. destruct (sends _ _ R1 j) as (_ & B & C). destruct (B k m J) as [B1 L]. split.
    - exists (se_id (s_ses s1 k)). split; [exact B1|]. now apply (all_opened _ _ _ _ _ _ R1).
    - intros k' m' Z. apply C in Z. congruence. }
  destruct (P _ _ _ _ _ _ H) as [P1 P2]. split; [exact P1|]. split; [exact P2|]. intros k' m' Hin. apply in_split in Hin. destruct Hin as (d1 & d2 & ->).
  assert (H' : run init ((a ++ EDeliver j k m :: d1) ++ EDeliver j k' m' :: d2) s) by (rewrite <- app_assoc; exact H).
  destruct (P _ _ _ _ _ _ H') as [_ Q]. apply (Q k m). rewrite in_app_iff. right. now left.
Qed.
(** A handler can send to a client that is not registered here, and to one whose socket nobody
    uses, and then return. *)
Theorem C72_others tr s k c id m : run init tr s -> se_phase (s_ses s k) = Working c None ->
  (s_reg s id = None \/ exists k', s_reg s id = Some k' /\ k' <> k /\ se_queue (s_ses s k') = []) ->
  exists tr' s', run s tr' s' /\ In (EReturn k) tr' /\ (forall k', s_reg s id = Some k' -> In (EDeliver (s_next_job s) k' m) tr').
Proof.
  intros H P [R|(k' & R & N & Q)].
  - eexists ((([] ++ [_]) ++ []) ++ [_]), _. split; [|split; [right; left; reflexivity|congruence]].
    eapply R_step; [eapply R_step; [eapply R_step; [apply R_refl|apply (S_handler_send _ _ _ s k c id m P)]|]|].
    + eapply (S_not_found _ _ _ _ (s_next_job s)); cbn; [apply upd_eq|exact R].
    + eapply (S_return _ _ _ _ k c (Some (s_next_job s))); cbn; [now rewrite upd_eq|intros j [= <-]; rewrite upd_eq; auto].
  - eexists (((([] ++ [_]) ++ []) ++ [_]) ++ [_]), _. split; [|split; [right; right; left; reflexivity|intros k2 R2; rewrite R in R2; injection R2 as <-; right; left; reflexivity]].
    eapply R_step; [eapply R_step; [eapply R_step; [eapply R_step; [apply R_refl|apply (S_handler_send _ _ _ s k c id m P)]|]|]|].
    + eapply (S_found _ _ _ _ (s_next_job s) id m k'); cbn; [apply upd_eq|exact R].
    + eapply (S_deliver _ _ _ _ (s_next_job s) k' m []); cbn; [apply upd_eq|]. rewrite upd_eq. cbn. rewrite upd_neq by exact N. now rewrite Q.
    + eapply (S_return _ _ _ _ k c (Some (s_next_job s))); cbn; [rewrite upd_neq by auto; rewrite upd_neq by auto; now rewrite upd_eq|intros j [= <-]; rewrite upd_eq; auto].
Qed.

(** What is not so: an empty binary message ends the session with a panic, *)
Theorem C42_empty_refuted a k d s : run init (a ++ EFrame k (FBinary []) :: d) s -> (exists d', d = ECrash k :: d') /\ ~ alive (se_phase (s_ses s k)).
Proof.
  intros H. assert (E : exists d', d = ECrash k :: d').
  { destruct (run_split _ _ _ _ _ _ H a _ d eq_refl) as (a0 & s1 & es & s2 & x & y & d0 & R1 & S & R2 & E & _ & ->).
    destruct S; destruct x as [|e1 [|e2 [|]]]; cbn in E; try discriminate; injection E; intros; subst; try discriminate. cbn. eauto. }
  split; [exact E|]. destruct E as [d' ->]. rewrite (crashed _ _ _ _ _ k H); [intros []|]. rewrite in_app_iff. right. right. now left.
Qed.
(** and a session that panics stays registered for good. *)
Theorem C44_crash_refuted tr s k : run init tr s -> distinct_ids s -> In (ECrash k) tr -> s_reg s (se_id (s_ses s k)) = Some k.
Proof. intros H D C. apply (registered_kept _ _ _ _ _ H D). now rewrite (crashed _ _ _ _ _ _ H C). Qed.
End Messages.

Definition p0 : text -> option value := fun _ => None.
Definition r0 : text -> bool := fun r => text_eqb r (chars "a").
Definition hello : frame := FBinary [1; 97; 7]%N.
Tactic Notation "go" ident(X) uconstr(k) :=
  let Y := fresh "Y" in
  match type of X with WsModel.run ?p ?q ?r ?s0 ?tr ?s => eassert (Y : step p q r s _ _); [eapply k; try reflexivity; try discriminate|] end;
  apply (R_step _ _ _ _ _ _ _ _ X) in Y; clear X; rename Y into X.

(** Two clients may choose the same id: when one leaves, the other, though connected, is found
    under no id. *)
Theorem C44_shared_id_refuted : exists tr s k, run p0 (chars "event") r0 init tr s /\ alive (se_phase (s_ses s k)) /\ (forall id, s_reg s id <> Some k).
Proof.
  assert (X := R_refl p0 (chars "event") r0 init).
  go X (S_open _ _ _ _ (chars "x")). go X (S_add _ _ _ _ 0). go X (S_open _ _ _ _ (chars "x")). go X (S_add _ _ _ _ 1). go X (S_ask _ _ _ _ 0). go X (S_lock _ _ _ _ 0). go X (S_gone _ _ _ _ 0).
  eexists _, _, 1. split; [exact X|]. split; [exact Logic.I|]. intros id. cbn [s_reg set_reg set_ses se_id]. change (put (put (put (fun _ => None) (chars "x") (Some 0)) (chars "x") (Some 1)) (chars "x") None id <> Some 1). unfold put. destruct (text_eqb id (chars "x")); intros E; discriminate E.
Qed.

Notation run0 := (run p0 (chars "event") r0).
Example C43_nonvacuous : (exists s, run0 init [EOpen 0 (chars "x"); EFrame 0 hello; ECall 0 (mk_call (chars "a") (BinaryBody [7%N])); EReturn 0; EFrame 0 FPing; EFrame 0 FClose; EEnd 0] s) /\
  bytes_frame hello /\ asks p0 (chars "event") hello (mk_call (chars "a") (BinaryBody [7%N])) /\ r0 (chars "a") = true.
Proof.
  split; [|split; [repeat constructor|split; [constructor; repeat split; [repeat constructor|cbn; lia]|reflexivity]]].
  assert (X := R_refl p0 (chars "event") r0 init).
  go X (S_open _ _ _ _ (chars "x")). go X (S_add _ _ _ _ 0). go X (S_ask _ _ _ _ 0). go X (S_lock _ _ _ _ 0). go X (S_call _ _ _ _ 0 hello). go X (S_return _ _ _ _ 0).
  go X (S_ask _ _ _ _ 0). go X (S_lock _ _ _ _ 0). go X (S_skip _ _ _ _ 0 FPing). go X (S_ask _ _ _ _ 0). go X (S_lock _ _ _ _ 0). go X (S_break _ _ _ _ 0 FClose).
  eexists. exact X.
Qed.
(** A binary message that is too short, and one for a route without a handler, are dropped. *)
Example C42_nonvacuous : (exists s, run0 init [EOpen 0 (chars "x"); EFrame 0 (FBinary [5; 97]%N); EFrame 0 (FBinary [1; 98; 7]%N); EFrame 0 (FBinary []); ECrash 0] s) /\
  (forall r p, r0 r = true -> ~ binary_for r p [5; 97]%N) /\ (forall r p, r0 r = true -> ~ binary_for r p [1; 98; 7]%N).
Proof.
  split.
  - assert (X := R_refl p0 (chars "event") r0 init).
    go X (S_open _ _ _ _ (chars "x")). go X (S_add _ _ _ _ 0). go X (S_ask _ _ _ _ 0). go X (S_lock _ _ _ _ 0). go X (S_skip _ _ _ _ 0 (FBinary [5; 97]%N)). go X (S_ask _ _ _ _ 0). go X (S_lock _ _ _ _ 0). go X (S_skip _ _ _ _ 0 (FBinary [1; 98; 7]%N)).
    go X (S_ask _ _ _ _ 0). go X (S_lock _ _ _ _ 0). go X (S_crash _ _ _ _ 0 (FBinary [])). eexists. exact X.
  - split; intros r p R (_ & _ & E); apply text_eqb_eq in R; subst r; discriminate E.
Qed.
Example C44_nonvacuous : (exists tr s, run0 init tr s /\ distinct_ids s /\ alive (se_phase (s_ses s 1)) /\ In (EEnd 0) tr) /\ (exists tr s, run0 init tr s /\ distinct_ids s /\ In (ECrash 0) tr).
Proof.
  split.
  - assert (X := R_refl p0 (chars "event") r0 init).
    go X (S_open _ _ _ _ (chars "x")). go X (S_add _ _ _ _ 0). go X (S_open _ _ _ _ (chars "y")). go X (S_add _ _ _ _ 1). go X (S_ask _ _ _ _ 0). go X (S_lock _ _ _ _ 0). go X (S_gone _ _ _ _ 0).
    eexists _, _. split; [exact X|]. split; [|split; [exact Logic.I|cbn; auto]].
    intros [|[|k]] [|[|k']] L L' E; try reflexivity; cbn in L, L'; try lia; discriminate E.
  - assert (X := R_refl p0 (chars "event") r0 init).
    go X (S_open _ _ _ _ (chars "x")). go X (S_add _ _ _ _ 0). go X (S_ask _ _ _ _ 0). go X (S_lock _ _ _ _ 0). go X (S_crash _ _ _ _ 0 (FBinary [])).
    eexists _, _. split; [exact X|]. split; [|cbn; auto]. intros [|k] [|k'] L L' E; try reflexivity; cbn in L, L'; lia.
Qed.
(** A message waits for a session that reads; the client sends a frame; it is delivered after
    the handler has returned. *)
Example C71_nonvacuous : exists tr s s', run0 init tr s /\ s_jobs s 0 = Queued 0 (chars "m") /\ se_phase (s_ses s 0) = Reading /\
  run0 s (EFrame 0 hello :: [ECall 0 (mk_call (chars "a") (BinaryBody [7%N])); EReturn 0; EDeliver 0 0 (chars "m")] ++ [EFrame 0 FPing]) s'.
Proof.
  assert (X := R_refl p0 (chars "event") r0 init).
  go X (S_open _ _ _ _ (chars "x")). go X (S_add _ _ _ _ 0). go X (S_ask _ _ _ _ 0). go X (S_lock _ _ _ _ 0). go X (S_send _ _ _ _ (chars "x") (chars "m")). go X (S_found _ _ _ _ 0 (chars "x") (chars "m") 0).
  eexists _, _. match type of X with WsModel.run _ _ _ _ _ ?s => assert (Y := R_refl p0 (chars "event") r0 s) end.
  go Y (S_call _ _ _ _ 0 hello). go Y (S_return _ _ _ _ 0). go Y (S_deliver _ _ _ _ 0 0). go Y (S_ask _ _ _ _ 0). go Y (S_lock _ _ _ _ 0). go Y (S_skip _ _ _ _ 0 FPing).
  eexists. split; [exact X|]. split; [reflexivity|]. split; [reflexivity|]. exact Y.
Qed.
Example C72_nonvacuous : (exists tr s c, run0 init tr s /\ se_phase (s_ses s 0) = Working c (Some 0) /\ s_jobs s 0 = Looking (se_id (s_ses s 0)) (chars "m") /\ distinct_ids s) /\
  exists tr s c, run0 init tr s /\ se_phase (s_ses s 0) = Working c None /\ s_reg s (chars "y") = Some 1 /\ se_queue (s_ses s 1) = [].
Proof.
  assert (X := R_refl p0 (chars "event") r0 init).
  go X (S_open _ _ _ _ (chars "x")). go X (S_add _ _ _ _ 0). go X (S_ask _ _ _ _ 0). go X (S_lock _ _ _ _ 0). go X (S_call _ _ _ _ 0 hello). assert (Z := X). go X (S_handler_send _ _ _ _ 0 _ (chars "x") (chars "m")).
  split; [eexists _, _, _; split; [exact X|split; [reflexivity|split; [reflexivity|]]]; intros [|k] [|k'] L L' E; try reflexivity; cbn in L, L'; lia|].
  go Z (S_open _ _ _ _ (chars "y")). go Z (S_add _ _ _ _ 1). eexists _, _, _. split; [exact Z|]. repeat split.
Qed.
Example C73_nonvacuous : exists s, run0 init ([EOpen 0 (chars "x"); EFrame 0 hello] ++ ECall 0 (mk_call (chars "a") (BinaryBody [7%N])) :: [EReturn 0] ++ EFrame 0 FPing :: [EFrame 0 FClose; EEnd 0]) s.
Proof. exact (proj1 C43_nonvacuous). Qed.

Print Assumptions C43_call.
Print Assumptions C43_dispatch.
Print Assumptions C43_drop.
Print Assumptions C43_close.
Print Assumptions C43_end.
Print Assumptions C43_silent.
Print Assumptions C42_route.
Print Assumptions C42_exact.
Print Assumptions C42_drop.
Print Assumptions C44_registered.
Print Assumptions C44_removed.
Print Assumptions C44_own_id.
Print Assumptions C71_blocked_refuted.
Print Assumptions C71_window.
Print Assumptions C72_reply_refuted.
Print Assumptions C73_sequential.
Print Assumptions C71_addressee.
Print Assumptions C72_others.
Print Assumptions C42_empty_refuted.
Print Assumptions C44_crash_refuted.
Print Assumptions C44_shared_id_refuted.
