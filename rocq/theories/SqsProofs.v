(** Lemmas about the queue consumer *)
From Verif Require Import Base SqsModel SqsSpec.
Local Open Scope list_scope.

Inductive kind := KReceived | KHandler | KHandled | KDelete | KTerm.
Definition is (k : kind) (b : nat) (e : event) : bool :=
  match k, e with
  | KReceived, EReceived b' _ | KHandler, EHandler b' _ | KHandled, EHandled b' _ | KDelete, EDelete b' _ | KTerm, ETerminate b' _ _ => Nat.eqb b' b
  | _, _ => false
  end.
Definition cnt (P : event -> bool) (tr : list event) : nat := length (filter P tr).
Lemma cnt_app P a b : cnt P (a ++ b) = cnt P a + cnt P b.
Proof. unfold cnt. now rewrite filter_app, app_length. Qed.
Lemma cnt_one P e : cnt P [e] = if P e then 1 else 0.
Proof. unfold cnt. cbn. now destruct (P e). Qed.
Lemma cnt_cons P e tr : cnt P (e :: tr) = (if P e then 1 else 0) + cnt P tr.
Proof. unfold cnt. cbn. now destruct (P e). Qed.
Lemma cnt_in P tr e : In e tr -> P e = true -> 1 <= cnt P tr.
Proof. intros H E. apply in_split in H. destruct H as (a & b & ->). rewrite cnt_app. change (e :: b) with ([e] ++ b). rewrite cnt_app, cnt_one, E. lia. Qed.
Lemma cnt_0 P tr e : cnt P tr = 0 -> In e tr -> P e = false.
Proof. intros H I. destruct (P e) eqn:E; [|reflexivity]. pose proof (cnt_in P tr e I E). lia. Qed.
Lemma cnt_unique P tr e e' : cnt P tr <= 1 -> In e tr -> In e' tr -> P e = true -> P e' = true -> e = e'.
Proof.
  intros H I I' E E'. apply in_split in I. destruct I as (a & b & ->). rewrite cnt_app in H. change (e :: b) with ([e] ++ b) in H. rewrite cnt_app, cnt_one, E in H.
  rewrite in_app_iff in I'. destruct I' as [I'|[I'|I']]; [|exact I'|]; pose proof (cnt_in P _ e' I' E'); lia.
Qed.
Lemma entries_spec ms es : entries ms = Some es <-> entries_of ms es.
Proof.
  revert es. induction ms as [|m ms IH]; intros es; cbn; split.
  - intros H. injection H as <-. constructor.
  - intros H. now inversion H.
  - destruct (m_id m) eqn:Ei, (m_receipt m) eqn:Er, (entries ms) as [es'|]; try discriminate. intros H. injection H as <-. constructor; [auto|now apply IH].
  - intros H. inversion H as [|? [i r] ? es' [Hi Hr] Ht]; subst. cbn in *. rewrite Hi, Hr. apply IH in Ht. now rewrite Ht.
Qed.
Lemma entries_none ms : entries ms = None <-> exists m, In m ms /\ incomplete m.
Proof.
  induction ms as [|m ms IH]; cbn; [split; [discriminate|intros (m & [] & _)]|]. unfold incomplete. split.
  - intros H. destruct (m_id m) eqn:Ei; [|exists m; auto]. destruct (m_receipt m) eqn:Er; [|exists m; auto]. destruct (entries ms); [discriminate|]. destruct (proj1 IH eq_refl) as (m' & Hm & Hi). exists m'. auto.
  - intros (m' & [<-|Hm] & Hi).
    + destruct Hi as [-> | ->]; [reflexivity|]. now destruct (m_id m).
    + rewrite (proj2 IH); [now destruct (m_id m), (m_receipt m)|]. exists m'. auto.
Qed.
Lemma handler_call_spec ms cl : handler_call ms = cl <-> called_for ms cl.
Proof.
  split.
  - intros <-. destruct ms as [|m [|m' ms]]; cbn; constructor; cbn; discriminate || lia.
  - intros [m|l H]; [reflexivity|]. destruct l as [|m [|m' l]]; try reflexivity. now elim H.
Qed.

Section Config.
Variable c : config.
Variable x : ext_config.
Variable registered : bool.
Notation exec := (exec c x registered).
Notation step := (step c x registered).
Notation main_step := (main_step c x registered).

Lemma deletes_spec ms r : deletes c ms r = true <-> to_delete c ms r.
Proof.
  unfold deletes, to_delete, kept_on_failure, f, finalise. cbn. destruct (c_delete c); cbn; [|split; [discriminate|intros [H _]; discriminate]].
  destruct ms as [|m ms]; cbn; [rewrite andb_false_r; split; [discriminate|intros (_ & H & _); now elim H]|]. rewrite andb_true_r.
  destruct (c_delete_on_failure c) as [[]|]; cbn; destruct r; cbn; split; intros H; try discriminate; try reflexivity; try (repeat split; auto; try discriminate; try (right; discriminate)).
  all: destruct H as (_ & _ & [H|H]); [discriminate|now elim H].
Qed.

Lemma exec_split a e d s : exec (a ++ e :: d) s -> exists s1 s2, exec a s1 /\ step s1 (Some e) s2.
Proof.
  intros H. remember (a ++ e :: d) as tr eqn:E. revert d E. induction H as [|tr s e' s' H IH Hs]; intros d E; [now destruct a|].
  destruct e' as [e'|]; cbn in E.
  - destruct d as [|y d _] using rev_ind.
    + apply app_inj_tail in E. destruct E as [-> ->]. exists s, s'. auto.
    + change (a ++ e :: d ++ [y]) with (a ++ (e :: d) ++ [y]) in E. rewrite app_assoc in E. apply app_inj_tail in E. destruct E as [-> _]. now apply (IH d).
  - rewrite app_nil_r in E. now apply (IH d).
Qed.

(** The batch the polling task is at *)
Definition at_batch (p : pc) (b : nat) (ms : list message) : Prop :=
  match p with
  | Got b' ms' | Handling b' ms' | Handled b' ms' _ | Deleting b' ms' _ | After b' ms' _ => b' = b /\ ms' = ms
  | _ => False
  end.
Definition complete (tr : list event) (b : nat) (ms : list message) : Prop :=
  exists r, In (EHandled b r) tr /\ (deletes c ms r = true -> exists es, entries ms = Some es /\ In (EDelete b es) tr) /\
    (is_err r = true -> c_terminate c = true -> exists es, entries ms = Some es /\ In (ETerminate b es 0%Z) tr) /\
    (registered = true -> In (EHandler b (handler_call ms)) tr).
Definition pc_inv (tr : list event) (p : pc) : Prop :=
  match p with
  | Idle | Receiving | Terminating | Dead => True
  | Sleeping t => t = c_polling_wait_ms c \/ (t = auth_pause c /\ exists e, auth_error e /\ In (EReceiveError e) tr)
  | Got b ms => In (EReceived b ms) tr /\ cnt (is KHandler b) tr = 0 /\ cnt (is KHandled b) tr = 0 /\ cnt (is KDelete b) tr = 0 /\ cnt (is KTerm b) tr = 0
  | Handling b ms => In (EReceived b ms) tr /\ registered = true /\ In (EHandler b (handler_call ms)) tr /\ cnt (is KHandled b) tr = 0 /\ cnt (is KDelete b) tr = 0 /\ cnt (is KTerm b) tr = 0
  | Handled b ms r => In (EReceived b ms) tr /\ (registered = true -> In (EHandler b (handler_call ms)) tr) /\ In (EHandled b r) tr /\ cnt (is KDelete b) tr = 0 /\ cnt (is KTerm b) tr = 0
  | Deleting b ms r => In (EReceived b ms) tr /\ (registered = true -> In (EHandler b (handler_call ms)) tr) /\ In (EHandled b r) tr /\ (exists es, entries ms = Some es /\ In (EDelete b es) tr) /\ cnt (is KTerm b) tr = 0
  | After b ms r => In (EReceived b ms) tr /\ (registered = true -> In (EHandler b (handler_call ms)) tr) /\ In (EHandled b r) tr /\ (deletes c ms r = true -> exists es, entries ms = Some es /\ In (EDelete b es) tr) /\ cnt (is KTerm b) tr = 0
  end.
Record inv (tr : list event) (s : state) : Prop := mk_inv {
  i_once : forall k b, cnt (is k b) tr <= 1;
  i_fresh : forall k b, s_next s <= b -> cnt (is k b) tr = 0;
  i_pc : pc_inv tr (s_pc s);
  i_at : forall b ms, at_batch (s_pc s) b ms -> b < s_next s;
  i_all : s_pc s <> Dead -> forall b ms, In (EReceived b ms) tr -> at_batch (s_pc s) b ms \/ complete tr b ms;
  i_missing : forall b r, In (EHandled b r) tr -> (registered = true <-> r <> Missing);
  i_pause : forall t, In (EPause t) tr -> t = c_polling_wait_ms c \/ (t = auth_pause c /\ exists e, auth_error e /\ In (EReceiveError e) tr)
}.
Lemma complete_mono tr e b ms : complete tr b ms -> complete (tr ++ [e]) b ms.
Proof.
  intros (r & H1 & H2 & H3 & H4). exists r. split; [rewrite in_app_iff; auto|]. split; [intros A; destruct (H2 A) as (es & ? & ?); exists es; rewrite in_app_iff; auto|].
  split; [intros A B; destruct (H3 A B) as (es & ? & ?); exists es; rewrite in_app_iff; auto|]. intros A. rewrite in_app_iff. auto.
Qed.
Lemma auth_iff status code : is_connection_error status code = true -> auth_error (ServiceError status code).
Proof.
  unfold is_connection_error. rewrite orb_true_iff, N.eqb_eq. intros [->|H]; exists status || exists 403%N; exists code; split; auto. destruct code as [s|]; [|discriminate].
  rewrite orb_true_iff, !String.eqb_eq in H. destruct H as [-> | ->]; auto.
Qed.
(** Events of the heartbeat are of no kind. *)
Lemma cnt_extend k b b' es t : cnt (is k b) [EExtend b' es t] = 0.
Proof. now destruct k. Qed.
Ltac isin := rewrite ?in_app_iff in *; cbn [In] in *; intuition (try discriminate; eauto).
Lemma inv_quiet tr s s' e : inv tr s -> s_pc s' = s_pc s -> s_next s' = s_next s -> (forall k b, is k b e = false) -> (forall t, e <> EPause t) -> inv (tr ++ [e]) s'.
Proof.
  intros I Ep En Hk Hp. destruct I as [Io If Ip Ia Il Im Iw].
  assert (C : forall k b, cnt (is k b) (tr ++ [e]) = cnt (is k b) tr) by (intros k b; rewrite cnt_app, cnt_one, Hk; lia).
  constructor.
  - intros k b. rewrite C. apply Io.
  - intros k b H. rewrite C. apply If. now rewrite <- En.
  - rewrite Ep. destruct (s_pc s); cbn in *; rewrite ?C, ?in_app_iff; auto.
    + destruct Ip as (A & B & D & F & G). repeat split; tauto.
    + destruct Ip as (A & B & D & F & G). repeat split; tauto.
    + destruct Ip as (A & B & D & F & G). repeat split; tauto.
    + destruct Ip as (A & B & D & (es & F1 & F2) & G). repeat split; auto. exists es. rewrite in_app_iff. auto.
    + destruct Ip as (A & B & D & F & G). repeat split; auto. intros X. destruct (F X) as (es & F1 & F2). exists es. rewrite in_app_iff. auto.
    + destruct Ip as [Ip|(Ip & y & Y1 & Y2)]; auto. right. split; [exact Ip|]. exists y. rewrite in_app_iff. auto.
  - rewrite Ep, En. exact Ia.
  - rewrite Ep. intros Hd b ms H. rewrite in_app_iff in H. destruct H as [H|[H|[]]]; [destruct (Il Hd b ms H); auto using complete_mono|]. subst e. specialize (Hk KReceived b). cbn in Hk. now rewrite Nat.eqb_refl in Hk.
  - intros b r H. rewrite in_app_iff in H. destruct H as [H|[H|[]]]; [now apply (Im b)|]. subst e. specialize (Hk KHandled b). cbn in Hk. now rewrite Nat.eqb_refl in Hk.
  - intros t H. rewrite in_app_iff in H. destruct H as [H|[H|[]]]; [|now elim (Hp t)]. destruct (Iw t H) as [A|(A & y & Y1 & Y2)]; auto. right. split; [exact A|]. exists y. rewrite in_app_iff. auto.
Qed.

(** A new event of a kind at a batch that has none of it *)
Lemma once_event tr e k0 b0 n n' : (forall k b, cnt (is k b) tr <= 1) -> (forall k b, n <= b -> cnt (is k b) tr = 0) -> n <= n' -> b0 < n' ->
  (forall k b, is k b e = true -> k = k0 /\ b = b0) -> cnt (is k0 b0) tr = 0 ->
  (forall k b, cnt (is k b) (tr ++ [e]) <= 1) /\ (forall k b, n' <= b -> cnt (is k b) (tr ++ [e]) = 0).
Proof.
  intros Io If Hn Hb Hk H0. split; intros k b; [|intros Hge]; rewrite cnt_app, cnt_one; destruct (is k b e) eqn:E.
  - destruct (Hk k b E) as [-> ->]. rewrite H0. lia.
  - rewrite Nat.add_0_r. apply Io.
  - destruct (Hk k b E) as [-> ->]. lia.
  - rewrite If by lia. reflexivity.
Qed.
Lemma kind_only e k b : is k b e = true -> match e with
  | EReceived b' _ => k = KReceived /\ b = b' | EHandler b' _ => k = KHandler /\ b = b' | EHandled b' _ => k = KHandled /\ b = b'
  | EDelete b' _ => k = KDelete /\ b = b' | ETerminate b' _ _ => k = KTerm /\ b = b' | _ => False end.
Proof. destruct k, e; cbn; intros H; try discriminate; apply Nat.eqb_eq in H; auto. Qed.
Lemma cnt_other k b e tr : is k b e = false -> cnt (is k b) (tr ++ [e]) = cnt (is k b) tr.
Proof. intros H. rewrite cnt_app, cnt_one, H. lia. Qed.
Lemma pause_mono tr e t : (t = c_polling_wait_ms c \/ (t = auth_pause c /\ exists y, auth_error y /\ In (EReceiveError y) tr)) ->
  t = c_polling_wait_ms c \/ (t = auth_pause c /\ exists y, auth_error y /\ In (EReceiveError y) (tr ++ [e])).
Proof. intros [H|(H & y & Y1 & Y2)]; auto. right. split; [exact H|]. exists y. rewrite in_app_iff. auto. Qed.
Lemma eqb_self_false k b e tr : cnt (is k b) tr = 0 -> In e tr -> is k b e = true -> False.
Proof. intros H I E. pose proof (cnt_0 _ _ _ H I). congruence. Qed.

Lemma inv_main tr s e s' : inv tr s -> main_step s e s' -> inv (tr ++ opt_list e) s'.
Proof.
  intros I H. destruct H as [n hs|n hs ms|n hs y|n hs b ms R|n hs b ms R|n hs b ms r Hr|n hs b ms|n hs b ms r D|n hs b ms r es D E|n hs b ms r D E|n hs b ms r|n hs b ms|n hs b ms r Hr T|n hs b ms r es Hr T E|n hs b ms r Hr T E|n hs|n hs t]; cbn [opt_list]; rewrite ?app_nil_r.
  - (* receive *) destruct I as [Io If Ip Ia Il Im Iw]. cbn [s_pc s_next] in *. assert (K : forall k b, is k b (EReceive (f_wait_seconds (f c)) (f_batch_size (f c)) (f_visibility (f c))) = false) by (intros []; reflexivity).
    constructor; cbn [s_pc s_next]; try (intros; rewrite cnt_other by apply K; auto); cbn; auto; try tauto.
    + intros _ b ms H. rewrite in_app_iff in H. destruct H as [H|[H|[]]]; [|discriminate]. destruct (Il ltac:(discriminate) b ms H) as [[]|X]. right. now apply complete_mono.
    + intros b r H. rewrite in_app_iff in H. destruct H as [H|[H|[]]]; [|discriminate]. now apply (Im b).
    + intros t H. rewrite in_app_iff in H. destruct H as [H|[H|[]]]; [|discriminate]. apply pause_mono. auto.
  - (* received *) destruct I as [Io If Ip Ia Il Im Iw]. cbn [s_pc s_next] in *.
    destruct (once_event tr (EReceived n ms) KReceived n n (S n) Io If) as [O F]; [lia|lia|intros k b X; now apply kind_only in X|now apply If|].
    constructor; cbn [s_pc s_next]; auto.
    + cbn. rewrite !cnt_other by reflexivity. rewrite !If by lia. repeat split; auto. rewrite in_app_iff. cbn. auto.
    + cbn. intros b ms' [<- _]. lia.
    + intros _ b ms' H. rewrite in_app_iff in H. destruct H as [H|[H|[]]].
      * destruct (Il ltac:(discriminate) b ms' H) as [[]|X]. right. now apply complete_mono.
      * injection H as <- <-. left. cbn. auto.
    + intros b r H. rewrite in_app_iff in H. destruct H as [H|[H|[]]]; [|discriminate]. now apply (Im b).
    + intros t H. rewrite in_app_iff in H. destruct H as [H|[H|[]]]; [|discriminate]. apply pause_mono. auto.
  - (* receive error *) destruct I as [Io If Ip Ia Il Im Iw]. cbn [s_pc s_next] in *. assert (K : forall k b, is k b (EReceiveError y) = false) by (intros []; reflexivity).
    constructor; cbn [s_pc s_next]; try (intros; rewrite cnt_other by apply K; auto); auto; try (cbn; tauto).
    + cbn. unfold pause_after. destruct y as [status code|]; [|left; reflexivity]. destruct (is_connection_error status code) eqn:X; [|left; reflexivity]. right. split; [reflexivity|]. exists (ServiceError status code). split; [now apply auth_iff|]. rewrite in_app_iff. cbn. auto.
    + intros _ b ms H. rewrite in_app_iff in H. destruct H as [H|[H|[]]]; [|discriminate]. destruct (Il ltac:(discriminate) b ms H) as [[]|X]. right. now apply complete_mono.
    + intros b r H. rewrite in_app_iff in H. destruct H as [H|[H|[]]]; [|discriminate]. now apply (Im b).
    + intros t H. rewrite in_app_iff in H. destruct H as [H|[H|[]]]; [|discriminate]. apply pause_mono. auto.
  - (* handler *) destruct I as [Io If Ip Ia Il Im Iw]. cbn [s_pc s_next] in *. destruct Ip as (P1 & P2 & P3 & P4 & P5). assert (Hb : b < n) by (apply (Ia b ms); cbn; auto).
    destruct (once_event tr (EHandler b (handler_call ms)) KHandler b n n Io If) as [O F]; [lia|lia|intros k b' X; now apply kind_only in X|exact P2|].
    constructor; cbn [s_pc s_next]; auto.
    + cbn. rewrite !cnt_other by reflexivity. repeat split; auto; rewrite in_app_iff; cbn; auto.
    + intros _ b' ms' H. rewrite in_app_iff in H. destruct H as [H|[H|[]]]; [|discriminate]. destruct (Il ltac:(discriminate) b' ms' H) as [X|X]; [left; exact X|]. right. now apply complete_mono.
    + intros b' r H. rewrite in_app_iff in H. destruct H as [H|[H|[]]]; [|discriminate]. now apply (Im b').
    + intros t H. rewrite in_app_iff in H. destruct H as [H|[H|[]]]; [|discriminate]. apply pause_mono. auto.
  - (* missing *) destruct I as [Io If Ip Ia Il Im Iw]. cbn [s_pc s_next] in *. destruct Ip as (P1 & P2 & P3 & P4 & P5). assert (Hb : b < n) by (apply (Ia b ms); cbn; auto).
    destruct (once_event tr (EHandled b Missing) KHandled b n n Io If) as [O F]; [lia|lia|intros k b' X; now apply kind_only in X|exact P3|].
    constructor; cbn [s_pc s_next]; auto.
    + cbn. rewrite !cnt_other by reflexivity. repeat split; auto; rewrite ?in_app_iff; cbn; auto; congruence.
    + intros _ b' ms' H. rewrite in_app_iff in H. destruct H as [H|[H|[]]]; [|discriminate]. destruct (Il ltac:(discriminate) b' ms' H) as [X|X]; [left; exact X|]. right. now apply complete_mono.
    + intros b' r H. rewrite in_app_iff in H. destruct H as [H|[H|[]]]; [now apply (Im b')|]. injection H as _ <-. split; [congruence|intros X; now elim X].
    + intros t H. rewrite in_app_iff in H. destruct H as [H|[H|[]]]; [|discriminate]. apply pause_mono. auto.
  - (* done *) destruct I as [Io If Ip Ia Il Im Iw]. cbn [s_pc s_next] in *. destruct Ip as (P1 & P2 & P3 & P4 & P5 & P6). assert (Hb : b < n) by (apply (Ia b ms); cbn; auto).
    destruct (once_event tr (EHandled b r) KHandled b n n Io If) as [O F]; [lia|lia|intros k b' X; now apply kind_only in X|exact P4|].
    constructor; cbn [s_pc s_next]; auto.
    + cbn. rewrite !cnt_other by reflexivity. repeat split; auto; rewrite ?in_app_iff; cbn; auto.
    + intros _ b' ms' H. rewrite in_app_iff in H. destruct H as [H|[H|[]]]; [|discriminate]. destruct (Il ltac:(discriminate) b' ms' H) as [X|X]; [left; exact X|]. right. now apply complete_mono.
    + intros b' r' H. rewrite in_app_iff in H. destruct H as [H|[H|[]]]; [now apply (Im b')|]. injection H as _ <-. tauto.
    + intros t H. rewrite in_app_iff in H. destruct H as [H|[H|[]]]; [|discriminate]. apply pause_mono. auto.
  - (* handler panic *) destruct I as [Io If Ip Ia Il Im Iw]. cbn [s_pc s_next] in *. assert (K : forall k b', is k b' (EHandlerPanic b) = false) by (intros []; reflexivity).
    constructor; cbn [s_pc s_next]; try (intros; rewrite cnt_other by apply K; auto); cbn; auto; try tauto.
    + intros b' r H. rewrite in_app_iff in H. destruct H as [H|[H|[]]]; [|discriminate]. now apply (Im b').
    + intros t H. rewrite in_app_iff in H. destruct H as [H|[H|[]]]; [|discriminate]. apply pause_mono. auto.
  - (* keep *) destruct I as [Io If Ip Ia Il Im Iw]. cbn [s_pc s_next] in *. destruct Ip as (P1 & P2 & P3 & P4 & P5). constructor; cbn [s_pc s_next]; auto.
    + cbn. repeat split; auto. congruence.
    + intros _ b' ms' H. destruct (Il ltac:(discriminate) b' ms' H) as [X|X]; auto.
  - (* delete *) destruct I as [Io If Ip Ia Il Im Iw]. cbn [s_pc s_next] in *. destruct Ip as (P1 & P2 & P3 & P4 & P5). assert (Hb : b < n) by (apply (Ia b ms); cbn; auto).
    destruct (once_event tr (EDelete b es) KDelete b n n Io If) as [O F]; [lia|lia|intros k b' X; now apply kind_only in X|exact P4|].
    constructor; cbn [s_pc s_next]; auto.
    + cbn. rewrite !cnt_other by reflexivity. repeat split; auto; rewrite ?in_app_iff; cbn; auto. exists es. rewrite in_app_iff. cbn. auto.
    + intros _ b' ms' H. rewrite in_app_iff in H. destruct H as [H|[H|[]]]; [|discriminate]. destruct (Il ltac:(discriminate) b' ms' H) as [X|X]; [left; exact X|]. right. now apply complete_mono.
    + intros b' r' H. rewrite in_app_iff in H. destruct H as [H|[H|[]]]; [|discriminate]. now apply (Im b').
    + intros t H. rewrite in_app_iff in H. destruct H as [H|[H|[]]]; [|discriminate]. apply pause_mono. auto.
  - (* delete panic *) destruct I as [Io If Ip Ia Il Im Iw]. cbn [s_pc s_next] in *. assert (K : forall k b', is k b' EPanic = false) by (intros []; reflexivity).
    constructor; cbn [s_pc s_next]; try (intros; rewrite cnt_other by apply K; auto); cbn; auto; try tauto.
    + intros b' r' H. rewrite in_app_iff in H. destruct H as [H|[H|[]]]; [|discriminate]. now apply (Im b').
    + intros t H. rewrite in_app_iff in H. destruct H as [H|[H|[]]]; [|discriminate]. apply pause_mono. auto.
  - (* deleted *) destruct I as [Io If Ip Ia Il Im Iw]. cbn [s_pc s_next] in *. destruct Ip as (P1 & P2 & P3 & P4 & P5). constructor; cbn [s_pc s_next]; auto.
    + cbn. repeat split; auto.
    + intros _ b' ms' H. destruct (Il ltac:(discriminate) b' ms' H) as [X|X]; auto.
  - (* ok *) destruct I as [Io If Ip Ia Il Im Iw]. cbn [s_pc s_next] in *. destruct Ip as (P1 & P2 & P3 & P4 & P5). constructor; cbn [s_pc s_next]; auto.
    + left. reflexivity.
    + intros ? ? [].
    + intros _ b' ms' H. right. destruct (Il ltac:(discriminate) b' ms' H) as [X|X]; auto. cbn in X. destruct X as [<- <-]. exists Done. repeat split; auto. discriminate.
  - (* leave *) destruct I as [Io If Ip Ia Il Im Iw]. cbn [s_pc s_next] in *. destruct Ip as (P1 & P2 & P3 & P4 & P5). constructor; cbn [s_pc s_next]; auto.
    + left. reflexivity.
    + intros ? ? [].
    + intros _ b' ms' H. right. destruct (Il ltac:(discriminate) b' ms' H) as [X|X]; auto. cbn in X. destruct X as [<- <-]. exists r. repeat split; auto. intros _ T'. cbn in T. congruence.
  - (* terminate *) destruct I as [Io If Ip Ia Il Im Iw]. cbn [s_pc s_next] in *. destruct Ip as (P1 & P2 & P3 & P4 & P5). assert (Hb : b < n) by (apply (Ia b ms); cbn; auto).
    destruct (once_event tr (ETerminate b es (extension x (Some 0%Z))) KTerm b n n Io If) as [O F]; [lia|lia|intros k b' X; now apply kind_only in X|exact P5|].
    constructor; cbn [s_pc s_next]; auto.
    + exact I.
    + intros ? ? [].
    + intros _ b' ms' H. right. rewrite in_app_iff in H. destruct H as [H|[H|[]]]; [|discriminate]. destruct (Il ltac:(discriminate) b' ms' H) as [X|X]; [|now apply complete_mono]. cbn in X. destruct X as [<- <-].
      exists r. split; [rewrite in_app_iff; auto|]. split; [intros A; destruct (P4 A) as (es' & E1 & E2); exists es'; rewrite in_app_iff; auto|]. split; [intros _ _; exists es; split; [exact E|]; rewrite in_app_iff; right; now left|]. intros A. rewrite in_app_iff. auto.
    + intros b' r' H. rewrite in_app_iff in H. destruct H as [H|[H|[]]]; [|discriminate]. now apply (Im b').
    + intros t H. rewrite in_app_iff in H. destruct H as [H|[H|[]]]; [|discriminate]. apply pause_mono. auto.
  - (* terminate panic *) destruct I as [Io If Ip Ia Il Im Iw]. cbn [s_pc s_next] in *. assert (K : forall k b', is k b' EPanic = false) by (intros []; reflexivity).
    constructor; cbn [s_pc s_next]; try (intros; rewrite cnt_other by apply K; auto); cbn; auto; try tauto.
    + intros b' r' H. rewrite in_app_iff in H. destruct H as [H|[H|[]]]; [|discriminate]. now apply (Im b').
    + intros t H. rewrite in_app_iff in H. destruct H as [H|[H|[]]]; [|discriminate]. apply pause_mono. auto.
  - (* terminated *) destruct I as [Io If Ip Ia Il Im Iw]. cbn [s_pc s_next] in *. constructor; cbn [s_pc s_next]; auto.
    + left. reflexivity.
    + intros _ b' ms' H. right. destruct (Il ltac:(discriminate) b' ms' H) as [[]|X]; auto.
  - (* sleep *) destruct I as [Io If Ip Ia Il Im Iw]. cbn [s_pc s_next] in *. assert (K : forall k b', is k b' (EPause t) = false) by (intros []; reflexivity).
    constructor; cbn [s_pc s_next]; try (intros; rewrite cnt_other by apply K; auto); cbn; auto; try tauto.
    + intros _ b ms H. rewrite in_app_iff in H. destruct H as [H|[H|[]]]; [|discriminate]. destruct (Il ltac:(discriminate) b ms H) as [[]|X]. right. now apply complete_mono.
    + intros b' r' H. rewrite in_app_iff in H. destruct H as [H|[H|[]]]; [|discriminate]. now apply (Im b').
    + intros t' H. rewrite in_app_iff in H. destruct H as [H|[H|[]]]; [apply pause_mono; auto|]. injection H as <-. apply pause_mono. exact Ip.
Qed.
Lemma hb_event h e h' : hb_step x h (Some e) h' -> exists es, e = EExtend (h_batch h) es (extend_to x) /\ entries_of (h_msgs h) es /\ e_interval x <> Some 0%N.
Proof. intros H. inversion H; subst; eexists; (split; [reflexivity|]); (split; [now apply entries_spec|assumption]). Qed.
Lemma exec_inv tr s : exec tr s -> inv tr s.
Proof.
  induction 1 as [|tr s e s' H IH Hs].
  - constructor; cbn; auto; try (intros; lia); try tauto.
  - destruct Hs as [s e s' Hm|p n l h r e h' Hh]; [now apply inv_main with s|]. destruct e as [e|]; cbn [opt_list].
    + apply hb_event in Hh. destruct Hh as (es & -> & _). apply inv_quiet with (mk_state p n (l ++ h :: r)); auto; [intros []; reflexivity|discriminate].
    + rewrite app_nil_r. destruct IH. now constructor.
Qed.

(** Heartbeats *)
Record hb_inv (tr : list event) (s : state) : Prop := mk_hb_inv {
  hb_known : forall h, In h (s_hbs s) -> In (EReceived (h_batch h) (h_msgs h)) tr /\ e_interval x <> None /\ ~ (exists ms, s_pc s = Got (h_batch h) ms);
  hb_unique : NoDup (map h_batch (s_hbs s));
  hb_stop : forall h r, In h (s_hbs s) -> In (EHandled (h_batch h) r) tr -> h_stop h = true
}.
Lemma stop_batches b hs : map h_batch (stop b hs) = map h_batch hs.
Proof. unfold stop. rewrite map_map. apply map_ext. intros h. now destruct (Nat.eqb (h_batch h) b). Qed.
Lemma in_stop b hs h : In h (stop b hs) -> exists h0, In h0 hs /\ h_batch h0 = h_batch h /\ h_msgs h0 = h_msgs h /\ h_pc h0 = h_pc h /\ (h_batch h = b -> h_stop h = true) /\ (h_batch h <> b -> h_stop h = h_stop h0).
Proof.
  unfold stop. intros H. apply in_map_iff in H. destruct H as (h0 & <- & H). exists h0. destruct (Nat.eqb_spec (h_batch h0) b); cbn; repeat split; auto; congruence.
Qed.

Lemma in_spawn b ms hs h : In h (spawn x b ms hs) -> In h hs \/ (h = mk_hb b ms false HWait /\ e_interval x <> None).
Proof. unfold spawn. destruct (e_interval x); auto. rewrite in_app_iff. intros [H|[<-|[]]]; auto. right. split; [reflexivity|discriminate]. Qed.
Lemma spawn_unique b ms hs : NoDup (map h_batch hs) -> ~ In b (map h_batch hs) -> NoDup (map h_batch (spawn x b ms hs)).
Proof. intros N H. unfold spawn. destruct (e_interval x); auto. rewrite map_app. cbn. apply (NoDup_Add (Add_app b (map h_batch hs) [])). rewrite app_nil_r. auto. Qed.
Lemma hb_inv_main tr s e s' : inv tr s -> hb_inv tr s -> main_step s e s' -> hb_inv (tr ++ opt_list e) s'.
Proof.
  intros I [K U St] H.
  assert (SAME : s_hbs s' = s_hbs s -> (forall b ms, s_pc s' = Got b ms -> exists ms', e = Some (EReceived b ms')) -> (forall b r, e <> Some (EHandled b r)) -> hb_inv (tr ++ opt_list e) s').
  { intros E G Q. constructor; rewrite E; auto.
    - intros h Hh. destruct (K h Hh) as (K1 & K2 & K3). split; [rewrite in_app_iff; auto|]. split; [exact K2|]. intros [ms X]. destruct (G _ _ X) as [ms' ->].
      assert (Hn : h_batch h = s_next s) by (inversion H; subst; reflexivity). pose proof (i_fresh _ _ I KReceived (h_batch h) ltac:(lia)) as F. pose proof (cnt_0 _ _ _ F K1) as C. cbn in C. now rewrite Nat.eqb_refl in C.
    - intros h r Hh Hr. rewrite in_app_iff in Hr. destruct Hr as [Hr|Hr]; [now apply (St h r)|]. destruct e as [e|]; cbn in Hr; [|destruct Hr]. destruct Hr as [Hr|[]]. subst e. now elim (Q (h_batch h) r). }
  destruct H as [n hs|n hs ms|n hs y|n hs b ms R|n hs b ms R|n hs b ms r Hr|n hs b ms|n hs b ms r D|n hs b ms r es D E|n hs b ms r D E|n hs b ms r|n hs b ms|n hs b ms r Hr T|n hs b ms r es Hr T E|n hs b ms r Hr T E|n hs|n hs t];
    try (apply SAME; [reflexivity|cbn; intros ? ? X; first [discriminate X|injection X as <- <-; eauto]|discriminate]); cbn [s_hbs s_pc opt_list] in *.
  - assert (Nb : ~ In b (map h_batch hs)). { intros X. apply in_map_iff in X. destruct X as (h & Eh & Hh). destruct (K h Hh) as (_ & _ & K3). apply K3. exists ms. now rewrite Eh. }
    destruct (i_pc _ _ I) as (P1 & P2 & P3 & P4 & P5). constructor; cbn [s_hbs s_pc].
    + intros h Hh. apply in_spawn in Hh. destruct Hh as [Hh|[-> Hi]].
      * destruct (K h Hh) as (K1 & K2 & K3). repeat split; auto; [rewrite in_app_iff; auto|]. intros [? X]. discriminate.
      * cbn. repeat split; auto; [rewrite in_app_iff; auto|]. intros [? X]. discriminate.
    + now apply spawn_unique.
    + intros h r Hh Hr. rewrite in_app_iff in Hr. destruct Hr as [Hr|[Hr|[]]]; [|discriminate]. apply in_spawn in Hh. destruct Hh as [Hh|[-> Hi]]; [now apply (St h r)|]. cbn in Hr. pose proof (cnt_0 _ _ _ P3 Hr) as C. cbn in C. now rewrite Nat.eqb_refl in C.
  - assert (Nb : ~ In b (map h_batch hs)). { intros X. apply in_map_iff in X. destruct X as (h & Eh & Hh). destruct (K h Hh) as (_ & _ & K3). apply K3. exists ms. now rewrite Eh. }
    destruct (i_pc _ _ I) as (P1 & P2 & P3 & P4 & P5). constructor; cbn [s_hbs s_pc].
    + intros h Hh. apply in_stop in Hh. destruct Hh as (h0 & Hh & Eb & Em & _ & S1 & S2). rewrite <- Eb, <- Em. apply in_spawn in Hh. destruct Hh as [Hh|[-> Hi]].
      * destruct (K h0 Hh) as (K1 & K2 & K3). repeat split; auto; [rewrite in_app_iff; auto|]. intros [? X]. discriminate.
      * cbn. repeat split; auto; [rewrite in_app_iff; auto|]. intros [? X]. discriminate.
    + rewrite stop_batches. now apply spawn_unique.
    + intros h r Hh Hr. apply in_stop in Hh. destruct Hh as (h0 & Hh & Eb & Em & _ & S1 & S2). destruct (Nat.eq_dec (h_batch h) b) as [Eq|Nq]; [now apply S1|]. rewrite S2 by exact Nq.
      rewrite in_app_iff in Hr. destruct Hr as [Hr|[Hr|[]]]; [|congruence]. rewrite <- Eb in Hr. apply in_spawn in Hh. destruct Hh as [Hh|[-> Hi]]; [now apply (St h0 r)|]. cbn in Eb. congruence.
  - constructor; cbn [s_hbs s_pc].
    + intros h Hh. apply in_stop in Hh. destruct Hh as (h0 & Hh & Eb & Em & _ & S1 & S2). rewrite <- Eb, <- Em. destruct (K h0 Hh) as (K1 & K2 & K3). repeat split; auto; [rewrite in_app_iff; auto|]. intros [? X]. discriminate.
    + now rewrite stop_batches.
    + intros h r' Hh Hr'. apply in_stop in Hh. destruct Hh as (h0 & Hh & Eb & Em & _ & S1 & S2). destruct (Nat.eq_dec (h_batch h) b) as [Eq|Nq]; [now apply S1|]. rewrite S2 by exact Nq.
      rewrite in_app_iff in Hr'. destruct Hr' as [Hr'|[Hr'|[]]]; [|congruence]. rewrite <- Eb in Hr'. now apply (St h0 r').
  - constructor; cbn [s_hbs s_pc].
    + intros h Hh. apply in_stop in Hh. destruct Hh as (h0 & Hh & Eb & Em & _ & S1 & S2). rewrite <- Eb, <- Em. destruct (K h0 Hh) as (K1 & K2 & K3). repeat split; auto; [rewrite in_app_iff; auto|]. intros [? X]. discriminate.
    + now rewrite stop_batches.
    + intros h r' Hh Hr'. apply in_stop in Hh. destruct Hh as (h0 & Hh & Eb & Em & _ & S1 & S2). destruct (Nat.eq_dec (h_batch h) b) as [Eq|Nq]; [now apply S1|]. rewrite S2 by exact Nq.
      rewrite in_app_iff in Hr'. destruct Hr' as [Hr'|[Hr'|[]]]; [|discriminate]. rewrite <- Eb in Hr'. now apply (St h0 r').
Qed.
Lemma hb_shape h e h1 : hb_step x h e h1 -> match h1 with Some h' => h_batch h' = h_batch h /\ h_msgs h' = h_msgs h /\ h_stop h' = h_stop h | None => True end.
Proof. intros []; cbn; auto. Qed.
Lemma hb_inv_hb tr p n l h r e h' : hb_inv tr (mk_state p n (l ++ h :: r)) -> hb_step x h e h' -> hb_inv (tr ++ opt_list e) (mk_state p n (l ++ opt_list h' ++ r)).
Proof.
  intros [K U St] H. cbn [s_hbs s_pc] in *.
  assert (OLD : forall h1, In h1 (l ++ opt_list h' ++ r) -> exists h0, In h0 (l ++ h :: r) /\ h_batch h0 = h_batch h1 /\ h_msgs h0 = h_msgs h1 /\ h_stop h0 = h_stop h1).
  { intros h1 H1. rewrite !in_app_iff in H1. destruct H1 as [H1|[H1|H1]]; [exists h1; rewrite in_app_iff; auto| |exists h1; rewrite in_app_iff; cbn; auto].
    destruct h' as [h2|]; [|destruct H1]. destruct H1 as [<-|[]]. apply hb_shape in H. destruct H as (A & B & D). exists h. rewrite in_app_iff. cbn. auto. }
  assert (EV : forall b1 r1, ~ In (EHandled b1 r1) (opt_list e)).
  { intros b1 r1 X. destruct e as [e|]; [|exact X]. apply hb_event in H. destruct H as (es & -> & _). destruct X as [X|[]]. discriminate. }
  constructor; cbn [s_hbs s_pc].
  - intros h1 H1. destruct (OLD h1 H1) as (h0 & H0 & Eb & Em & _). rewrite <- Eb, <- Em. destruct (K h0 H0) as (K1 & K2 & K3). repeat split; auto. rewrite in_app_iff. auto.
  - rewrite !map_app in *. cbn [map] in U. destruct h' as [h2|]; cbn [opt_list map app].
    + apply hb_shape in H. destruct H as (A & _). now rewrite A.
    + now apply NoDup_remove_1 in U.
  - intros h1 r1 H1 Hr. destruct (OLD h1 H1) as (h0 & H0 & Eb & Em & Es). rewrite <- Es. apply (St h0 r1 H0). rewrite Eb. rewrite in_app_iff in Hr. destruct Hr as [Hr|Hr]; [exact Hr|]. now apply EV in Hr.
Qed.
Lemma exec_hb_inv tr s : exec tr s -> hb_inv tr s.
Proof.
  induction 1 as [|tr s e s' H IH Hs].
  - constructor; cbn; [intros ? []|constructor|intros ? ? []].
  - destruct Hs as [s e s' Hm|p n l h r e h' Hh]; [|now apply hb_inv_hb with h]. apply hb_inv_main with s; auto. now apply exec_inv.
Qed.

(** How many more extensions a stopped heartbeat can send *)
Definition left (h : heartbeat) : nat := match h_pc h with HWait => 1 | HCommitted => 2 | HCheck => 0 end.
Definition left_for (b : nat) (hs : list heartbeat) : nat := list_sum (map (fun h => if Nat.eqb (h_batch h) b then left h else 0) hs).
Lemma left_app b a d : left_for b (a ++ d) = left_for b a + left_for b d.
Proof. unfold left_for. now rewrite map_app, list_sum_app. Qed.
Lemma left_absent b hs : ~ In b (map h_batch hs) -> left_for b hs = 0.
Proof. induction hs as [|h hs IH]; intros H; [reflexivity|]. cbn in H. change (left_for b (h :: hs)) with ((if Nat.eqb (h_batch h) b then left h else 0) + left_for b hs). destruct (Nat.eqb_spec (h_batch h) b); [tauto|]. apply IH. tauto. Qed.
Lemma left_2 b hs : NoDup (map h_batch hs) -> left_for b hs <= 2.
Proof.
  intros N. destruct (in_dec Nat.eq_dec b (map h_batch hs)) as [H|H]; [|rewrite left_absent by exact H; lia]. apply in_map_iff in H. destruct H as (h & Eb & H). apply in_split in H. destruct H as (l & r & ->).
  rewrite map_app in N. cbn in N. apply NoDup_remove_2 in N. rewrite in_app_iff in N. rewrite left_app. change (h :: r) with ([h] ++ r). rewrite left_app. rewrite (left_absent b l), (left_absent b r) by (rewrite <- Eb; tauto).
  change (left_for b [h]) with ((if Nat.eqb (h_batch h) b then left h else 0) + 0). destruct (Nat.eqb (h_batch h) b); [|lia]. unfold left. destruct (h_pc h); lia.
Qed.
Lemma left_stop b b' hs : left_for b (stop b' hs) = left_for b hs.
Proof. unfold left_for, stop. rewrite map_map. f_equal. apply map_ext. intros h. destruct (Nat.eqb (h_batch h) b'); reflexivity. Qed.
Lemma left_spawn b b' ms hs : b <> b' -> left_for b (spawn x b' ms hs) = left_for b hs.
Proof. intros H. unfold spawn. destruct (e_interval x); [|reflexivity]. rewrite left_app. unfold left_for at 2. cbn. destruct (Nat.eqb_spec b' b); [congruence|]. cbn. lia. Qed.
Lemma after_handled a b r d s : exec (a ++ EHandled b r :: d) s -> cnt (extends b) d + left_for b (s_hbs s) <= 2.
Proof.
  intros H. remember (a ++ EHandled b r :: d) as tr eqn:E. revert d E. induction H as [|tr s e s' H IH Hs]; intros d E; [now destruct a|].
  assert (X : exec (tr ++ opt_list e) s') by (econstructor; eauto).
  assert (CASE : (exists d0, tr = a ++ EHandled b r :: d0 /\ d = d0 ++ opt_list e) \/ (tr = a /\ e = Some (EHandled b r) /\ d = [])).
  { destruct e as [e|]; cbn [opt_list] in *.
    - destruct d as [|y d _] using rev_ind.
      + apply app_inj_tail in E. destruct E as [-> ->]. right. auto.
      + change (a ++ EHandled b r :: d ++ [y]) with (a ++ (EHandled b r :: d) ++ [y]) in E. rewrite app_assoc in E. apply app_inj_tail in E. destruct E as [-> ->]. left. eauto.
    - rewrite app_nil_r in E. left. exists d. rewrite app_nil_r. auto. }
  destruct CASE as [(d0 & -> & ->)|(-> & -> & ->)].
  2: { cbn. apply left_2. apply (hb_unique _ _ (exec_hb_inv _ _ X)). }
  specialize (IH d0 eq_refl). pose proof (exec_inv _ _ H) as I. pose proof (exec_hb_inv _ _ H) as J.
  assert (HB : In (EHandled b r) (a ++ EHandled b r :: d0)) by (rewrite in_app_iff; cbn; auto).
  assert (GOT : forall ms b' n hs, s = mk_state (Got b' ms) n hs -> b <> b').
  { intros ms b' n hs -> ->. destruct (i_pc _ _ I) as (_ & _ & P3 & _). pose proof (cnt_0 _ _ _ P3 HB) as C. cbn in C. now rewrite Nat.eqb_refl in C. }
  rewrite cnt_app. destruct Hs as [s e s' Hm|p n l h q e h' Hh].
  - assert (Ce : cnt (extends b) (opt_list e) = 0) by (destruct Hm; reflexivity). rewrite Ce, Nat.add_0_r.
    destruct Hm; cbn [s_hbs] in *; rewrite ?left_stop, ?left_spawn; eauto.
  - cbn [s_hbs] in *. rewrite left_app in *. change (h :: q) with ([h] ++ q) in IH. rewrite left_app in *.
    assert (Hin : In h (l ++ h :: q)) by (rewrite in_app_iff; cbn; auto).
    destruct (Nat.eq_dec (h_batch h) b) as [Eb|Nb].
    + assert (Sp : h_stop h = true) by (apply (hb_stop _ _ J h r); [exact Hin|now rewrite Eb]).
      destruct Hh; cbn [h_stop h_batch] in *; try discriminate; subst; cbn [opt_list] in *; rewrite ?cnt_one; cbn [extends]; rewrite ?Nat.eqb_refl; unfold left_for, left in *; cbn in *; rewrite ?Nat.eqb_refl in *; try lia.
      all: try (change (cnt (extends (h_batch h)) []) with 0; lia).
    + assert (Ce : cnt (extends b) (opt_list e) = 0). { destruct e as [e|]; [|reflexivity]. apply hb_event in Hh. destruct Hh as (es & -> & _). cbn [opt_list]. rewrite cnt_one. cbn. now destruct (Nat.eqb_spec (h_batch h) b). }
      assert (Le : left_for b (opt_list h') = 0). { destruct h' as [h2|]; [|reflexivity]. apply hb_shape in Hh. destruct Hh as (A & _). unfold left_for. cbn. rewrite A. now destruct (Nat.eqb_spec (h_batch h) b). }
      rewrite Ce, Le. lia.
Qed.
(** A running handler has a heartbeat. *)
Lemma exec_live tr s : exec tr s -> forall b ms n es, s_pc s = Handling b ms -> e_interval x = Some n -> n <> 0%N -> entries ms = Some es ->
  exists h, In h (s_hbs s) /\ h_batch h = b /\ h_msgs h = ms /\ h_stop h = false.
Proof.
  induction 1 as [|tr s e s' H IH Hs]; intros b ms i es Hp Hi Hi0 He; [discriminate|]. destruct Hs as [s e s' Hm|p n l h r e h' Hh].
  - destruct Hm; cbn in Hp; try discriminate. injection Hp as -> ->. cbn [s_hbs]. unfold spawn. rewrite Hi. exists (mk_hb b ms false HWait). rewrite in_app_iff. cbn. auto.
  - cbn [s_pc s_hbs] in *. destruct (IH b ms i es Hp Hi Hi0 He) as (h0 & H0 & Hb & Hm & Hk). rewrite in_app_iff in H0. cbn in H0. destruct H0 as [H0|[H0|H0]].
    + exists h0. rewrite in_app_iff. auto.
    + subst h0. destruct h' as [h2|].
      * apply hb_shape in Hh. destruct Hh as (A & B & D). exists h2. rewrite !in_app_iff. cbn. repeat split; auto; congruence.
      * exfalso. inversion Hh as [| | | |? ? ? ? Y| |]; subst; cbn in *; [discriminate|]. destruct Y; congruence.
    + exists h0. rewrite !in_app_iff. auto.
Qed.
Lemma exec_dead tr s : exec tr s -> s_pc s = Dead -> In EPanic tr \/ exists b, In (EHandlerPanic b) tr.
Proof.
  induction 1 as [|tr s e s' H IH Hs]; intros Hp; [discriminate|]. destruct Hs as [s e s' Hm|p n l h r e h' Hh].
  - destruct Hm; cbn in Hp; try discriminate; cbn [opt_list]; [right; eexists; rewrite in_app_iff; right; now left|left; rewrite in_app_iff; right; now left|left; rewrite in_app_iff; right; now left].
  - cbn [s_pc] in *. destruct (IH Hp) as [X|[b X]]; [left|right; exists b]; rewrite in_app_iff; auto.
Qed.
Lemma exec_panic tr s : exec tr s -> In EPanic tr -> exists b ms m, In (EReceived b ms) tr /\ In m ms /\ incomplete m.
Proof.
  intros H Hin. apply in_split in Hin. destruct Hin as (a & d & ->). destruct (exec_split _ _ _ _ H) as (s1 & s2 & Ha & Hs). inversion Hs as [? ? ? Hm|? ? ? ? ? ? ? Hh]; subst.
  - pose proof (exec_inv _ _ Ha) as I. inversion Hm as [| | | | | | | | |? ? b ms r D E| | | | |? ? b ms r D T E| |]; subst; destruct (i_pc _ _ I) as (P1 & _); apply entries_none in E; destruct E as (m & M1 & M2); exists b, ms, m; rewrite in_app_iff; auto.
  - apply hb_event in Hh. destruct Hh as (es & X & _). discriminate.
Qed.
(** How far the polling task is from its next poll *)
Definition rank (p : pc) : nat :=
  match p with Idle | Dead => 0 | Sleeping _ => 1 | Terminating => 2 | After _ _ _ => 3 | Deleting _ _ _ => 4 | Handled _ _ _ => 5 | Handling _ _ => 6 | Got _ _ => 7 | Receiving => 8 end.
Lemma rank_main s e s' : main_step s e s' -> (exists w b v, e = Some (EReceive w b v)) \/ rank (s_pc s') < rank (s_pc s).
Proof. intros []; cbn; eauto 6; right; lia. Qed.
Lemma runs_rank s n tr s' : runs c x registered s n tr s' -> (forall w b v, ~ In (EReceive w b v) tr) -> n + rank (s_pc s') <= rank (s_pc s).
Proof.
  induction 1 as [|s n tr s1 e s2 H IH Hm|s n tr p m l h r e h' H IH Hh]; intros N; [cbn; lia| |].
  - assert (N1 : forall w b v, ~ In (EReceive w b v) tr) by (intros w b v X; apply (N w b v); rewrite in_app_iff; auto). specialize (IH N1). destruct (rank_main _ _ _ Hm) as [(w & b & v & ->)|L]; [|lia]. exfalso. apply (N w b v). rewrite in_app_iff. right. now left.
  - apply IH. intros w b v X. apply (N w b v). rewrite in_app_iff. auto.
Qed.
Lemma progress s : s_pc s <> Dead -> exists e s', main_step s e s'.
Proof.
  destruct s as [p n hs]. cbn. intros H. destruct p as [| |b ms|b ms|b ms r|b ms r|b ms r| |t|].
  - do 2 eexists. apply M_receive.
  - do 2 eexists. apply (M_received _ _ _ _ _ []).
  - destruct registered eqn:R; do 2 eexists; [now apply M_handler|now apply M_missing].
  - do 2 eexists. now apply (M_done _ _ _ _ _ _ _ Done).
  - destruct (deletes c ms r) eqn:D; [destruct (entries ms) eqn:E|]; do 2 eexists; [eapply M_delete; eauto|now apply M_delete_panic|now apply M_keep].
  - do 2 eexists. apply M_deleted.
  - destruct (is_err r) eqn:R; [|destruct r; try discriminate; do 2 eexists; apply M_ok]. destruct (f_terminate (f c)) eqn:T; [destruct (entries ms) eqn:E|]; do 2 eexists; [eapply M_terminate; eauto|now apply M_terminate_panic|now apply M_leave].
  - do 2 eexists. apply M_terminated.
  - do 2 eexists. apply M_sleep.
  - now elim H.
Qed.
End Config.
