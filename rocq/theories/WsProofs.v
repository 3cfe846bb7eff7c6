(** Lemmas about WebSocket sessions *)
From Verif Require Import Base Value Bytes WsModel WsSpec.
Local Open Scope list_scope.

(** Text encoding *)
Lemma between_spec lo hi c : between lo hi c = true <-> (lo <= c <= hi)%N.
Proof. unfold between. rewrite andb_true_iff, !N.leb_le. reflexivity. Qed.
Lemma lossy_scalar n : forall l, length l <= n -> Forall (fun b => (b < 256)%N) l -> Forall scalar_value (lossy l).
Proof.
  induction n as [|n IH]; intros l Hl Hb; [destruct l; [constructor|cbn in Hl; lia]|].
  destruct l as [|a l1]; [constructor|]. inversion Hb as [|? ? Ha Hb1]; subst. cbn in Hl. cbn [lossy].
  assert (R : scalar_value replacement) by (unfold scalar_value, replacement; lia).
  assert (I1 : Forall scalar_value (lossy l1)) by (apply IH; [lia|assumption]).
  destruct (N.ltb_spec a 128) as [H1|H1]; [constructor; [unfold scalar_value; lia|assumption]|].
  destruct (between 194 223 a) eqn:B1.
  { apply between_spec in B1. destruct l1 as [|b l2]; [auto|]. inversion Hb1 as [|? ? Hb2 Hb3]; subst. cbn in Hl. destruct (cont b) eqn:Cb; [|auto]. unfold cont in Cb. apply between_spec in Cb. constructor; [unfold scalar_value; lia|apply IH; [lia|assumption]]. }
  destruct (between 224 239 a) eqn:B2.
  { apply between_spec in B2. destruct l1 as [|b l2]; [auto|]. inversion Hb1 as [|? ? Hb2 Hb3]; subst. cbn in Hl.
    destruct (if (a =? 224)%N then between 160 191 b else if (a =? 237)%N then between 128 159 b else cont b) eqn:Cb; [|auto].
    destruct l2 as [|c l3]; [auto|]. inversion Hb3 as [|? ? Hb4 Hb5]; subst. cbn in Hl.
    assert (I2 : Forall scalar_value (lossy (c :: l3))) by (apply IH; [cbn; lia|assumption]). destruct (cont c) eqn:Cc; [|auto]. unfold cont in Cc. apply between_spec in Cc.
    constructor; [|apply IH; [lia|assumption]]. unfold scalar_value. revert Cb.
    destruct (N.eqb_spec a 224); [|destruct (N.eqb_spec a 237); [|unfold cont]]; rewrite between_spec; lia. }
  destruct (between 240 244 a) eqn:B3; [|auto]. apply between_spec in B3. destruct l1 as [|b l2]; [auto|]. inversion Hb1 as [|? ? Hb2 Hb3]; subst. cbn in Hl.
  destruct (if (a =? 240)%N then between 144 191 b else if (a =? 244)%N then between 128 143 b else cont b) eqn:Cb; [|auto].
  destruct l2 as [|c l3]; [auto|]. inversion Hb3 as [|? ? Hb4 Hb5]; subst. cbn in Hl.
  assert (I2 : Forall scalar_value (lossy (c :: l3))) by (apply IH; [cbn; lia|assumption]). destruct (cont c) eqn:Cc; [|auto]. unfold cont in Cc. apply between_spec in Cc.
  destruct l3 as [|d l4]; [auto|]. inversion Hb5 as [|? ? Hb6 Hb7]; subst. cbn in Hl.
  assert (I3 : Forall scalar_value (lossy (d :: l4))) by (apply IH; [cbn; lia|assumption]). destruct (cont d) eqn:Cd; [|auto]. unfold cont in Cd. apply between_spec in Cd.
  constructor; [|apply IH; [lia|assumption]]. unfold scalar_value. revert Cb.
  destruct (N.eqb_spec a 240); [|destruct (N.eqb_spec a 244); [|unfold cont]]; rewrite between_spec; lia.
Qed.
Lemma from_utf8_spec l t : Forall (fun b => (b < 256)%N) l -> (from_utf8 l = Some t <-> Forall scalar_value t /\ utf8 t = l).
Proof.
  intros Hb. unfold from_utf8. destruct (list_eq_dec N.eq_dec (utf8 (lossy l)) l) as [E|E]; split.
  - intros H. injection H as <-. split; [now apply lossy_scalar with (length l)|exact E].
  - intros [S U]. subst l. now rewrite utf8_lossy.
  - discriminate.
  - intros [S U]. elim E. subst l. now rewrite utf8_lossy.
Qed.
Lemma from_utf8_enc t : Forall scalar_value t -> from_utf8 (utf8 t) = Some t.
Proof. intros H. apply from_utf8_spec; auto using utf8_bytes. Qed.

Lemma Forall_firstn_N (P : N -> Prop) n l : Forall P l -> Forall P (firstn n l).
Proof. intros H. revert n. induction H; intros [|n]; cbn; constructor; auto. Qed.
Lemma binary_route_spec l r p : Forall (fun b => (b < 256)%N) l -> (resolve_binary_route l = Some (Some (r, p)) <-> binary_for r p l).
Proof.
  intros Hb. unfold resolve_binary_route, binary_for. destruct l as [|n l]; [split; [discriminate|intros (_ & _ & H); discriminate]|].
  inversion Hb as [|? ? Hn Hl]; subst. split.
  - destruct (N.ltb_spec (N.of_nat (length l)) n) as [L|L]; [discriminate|]. destruct (from_utf8 (firstn (N.to_nat n) l)) as [r'|] eqn:E; [|discriminate].
    intros H. injection H as -> <-. apply from_utf8_spec in E; [|now apply Forall_firstn_N]. destruct E as [S U]. rewrite U.
    assert (Le : length (firstn (N.to_nat n) l) = N.to_nat n) by (apply firstn_length_le; lia). rewrite Le. split; [exact S|]. split; [lia|]. rewrite N2Nat.id. now rewrite firstn_skipn.
  - intros (S & L & H). injection H as -> ->. rewrite app_length.
    destruct (N.ltb_spec (N.of_nat (length (utf8 r) + length p)) (N.of_nat (length (utf8 r)))) as [X|X]; [lia|]. rewrite Nat2N.id.
    rewrite firstn_app, Nat.sub_diag, firstn_all, firstn_O, app_nil_r, from_utf8_enc by exact S. rewrite skipn_app, Nat.sub_diag, skipn_all. reflexivity.
Qed.

Section Messages.
Variable parse : text -> option value.
Variable key : text.
Variable routes : text -> bool.
Notation process := (process parse key routes).
Notation step := (step parse key routes).
Notation run := (run parse key routes).
Notation asks := (asks parse key).

Lemma process_call f c : bytes_frame f -> (process f = Call c <-> asks f c /\ routes (c_route c) = true).
Proof.
  intros Hb. destruct f as [t|l| | |]; cbn [WsModel.process]; try (split; [discriminate|intros [H _]; inversion H]).
  - unfold resolve_route. split.
    + destruct (parse t) as [[| | | | |m]|] eqn:P; try discriminate. destruct (get key m) as [[| | |r| |]|] eqn:G; try discriminate.
      destruct (routes r) eqn:R; [|discriminate]. intros H. injection H as <-. split; [now constructor|exact R].
    + intros [H R]. inversion H as [? m r P G|]; subst. cbn in R. now rewrite P, G, R.
  - split.
    + destruct (resolve_binary_route l) as [[[r p]|]|] eqn:B; try discriminate. destruct (routes r) eqn:R; [|discriminate]. intros H. injection H as <-. split; [|exact R]. constructor. now apply binary_route_spec.
    + intros [H R]. inversion H as [|? r p B]; subst. apply binary_route_spec in B; [|exact Hb]. cbn in R. now rewrite B, R.
Qed.
Lemma process_break f : process f = Break <-> f = FClose.
Proof.
  split; [|now intros ->]. destruct f as [t|l| | |]; cbn; try discriminate; auto.
  - destruct (resolve_route parse key t) as [[r v]|]; [destruct (routes r)|]; discriminate.
  - destruct (resolve_binary_route l) as [[[r p]|]|]; [destruct (routes r)| |]; discriminate.
Qed.
Lemma process_crash f : process f = Crash <-> f = FBinary [].
Proof.
  split; [|now intros ->]. destruct f as [t|l| | |]; cbn; try discriminate; auto.
  - destruct (resolve_route parse key t) as [[r v]|]; [destruct (routes r)|]; discriminate.
  - destruct l as [|n l]; [reflexivity|]. destruct (resolve_binary_route (n :: l)) as [[[r p]|]|] eqn:B; [destruct (routes r)| |discriminate B]; discriminate.
Qed.

Lemma upd_eq {A} (f : nat -> A) k a : upd f k a k = a.
Proof. unfold upd. now rewrite Nat.eqb_refl. Qed.
Lemma upd_neq {A} (f : nat -> A) k a i : i <> k -> upd f k a i = f i.
Proof. intros H. unfold upd. now destruct (Nat.eqb_spec i k). Qed.
Lemma put_eq r id o : put r id o id = o.
Proof. unfold put. now rewrite text_eqb_refl. Qed.
Lemma put_neq r id o i : i <> id -> put r id o i = r i.
Proof. intros H. unfold put. now rewrite text_eqb_neq. Qed.

(** Traces and steps *)
Lemma run_split s0 tr s : run s0 tr s -> forall a e d, tr = a ++ e :: d ->
  exists a0 s1 es s2 x y d0, run s0 a0 s1 /\ step s1 es s2 /\ run s2 d0 s /\ es = x ++ e :: y /\ a = a0 ++ x /\ d = y ++ d0.
Proof.
  induction 1 as [|s0 tr s1 es s2 H IH Hs]; intros a e d E; [now destruct a|].
  apply app_eq_app in E. destruct E as (l & [[E1 E2]|[E1 E2]]).
  - destruct l as [|e' l].
    + cbn in E2. rewrite app_nil_r in E1. subst a. exists tr, s1, es, s2, [], d, []. subst es. repeat split; auto; [constructor|now rewrite app_nil_r|now rewrite app_nil_r].
    + cbn in E2. injection E2 as <- E2. subst d. destruct (IH a e l E1) as (a0 & t1 & es1 & t2 & x & y & d0 & R1 & S1 & R2 & A & B & C). exists a0, t1, es1, t2, x, y, (d0 ++ es).
      repeat split; auto; [econstructor; eauto|]. subst l. now rewrite app_assoc.
  - subst a. exists tr, s1, es, s2, l, d, []. repeat split; auto; [constructor|now rewrite app_nil_r].
Qed.
Lemma run_app s a s1 b s2 : run s a s1 -> run s1 b s2 -> run s (a ++ b) s2.
Proof. intros H1 H2. induction H2 as [|s1 tr t es t' H IH Hs]; [now rewrite app_nil_r|]. rewrite app_assoc. econstructor; eauto. Qed.

(** The queue of the lock *)
Definition waits (p : phase) : nat := match p with Asking | Reading | Working _ _ => 1 | _ => 0 end.
Definition is_session (w : waiter) : bool := match w with WSession => true | _ => false end.
Definition nses (q : list waiter) : nat := length (filter is_session q).
Local Arguments nses : simpl never.
Lemma nses_app a b : nses (a ++ b) = nses a + nses b.
Proof. unfold nses. now rewrite filter_app, app_length. Qed.
Lemma nses_0 q : nses q = 0 <-> ~ In WSession q.
Proof.
  unfold nses. induction q as [|w q IH]; cbn; [tauto|]. destruct w; cbn; [split; [discriminate|intros H; elim H; auto]|]. rewrite IH. split; [intros H [X|X]; [discriminate|tauto]|tauto].
Qed.
Record winv (s : state) : Prop := mk_winv {
  w_new : forall k, s_next s <= k -> se_phase (s_ses s k) = Absent /\ se_queue (s_ses s k) = [];
  w_old : forall k, k < s_next s -> se_phase (s_ses s k) <> Absent;
  w_reg : forall id k, s_reg s id = Some k -> se_id (s_ses s k) = id /\ (alive (se_phase (s_ses s k)) \/ se_phase (s_ses s k) = Crashed);
  w_count : forall k, nses (se_queue (s_ses s k)) = waits (se_phase (s_ses s k));
  w_head : forall k, (se_phase (s_ses s k) = Reading \/ exists c w, se_phase (s_ses s k) = Working c w) -> exists q, se_queue (s_ses s k) = WSession :: q;
  w_jobs : forall j, s_next_job s <= j -> s_jobs s j = NoJob;
  w_queued : forall j k m, s_jobs s j = Queued k m -> In (WSend j) (se_queue (s_ses s k));
  w_waits : forall k c j, se_phase (s_ses s k) = Working c (Some j) -> s_jobs s j <> NoJob
}.
Lemma winv_init : winv init.
Proof. constructor; cbn; auto; try discriminate; try lia. - intros k [H|(c & w & H)]; discriminate. Qed.

(** A session that gives up or goes on: only it changes, and only the lock's head goes. *)
Lemma winv_ses s k se q : winv s -> se_queue (s_ses s k) = WSession :: q ->
  se_id se = se_id (s_ses s k) -> se_queue se = q -> se_phase se = Pausing \/ se_phase se = Crashed -> alive (se_phase (s_ses s k)) -> winv (set_ses s k se).
Proof.
  intros [Wn Wo Wr Wc Wh Wj Wq Ww] Q Ei Eq Ep Al.
  assert (Lt : k < s_next s). { destruct (Nat.lt_ge_cases k (s_next s)) as [H|H]; [exact H|]. rewrite (proj1 (Wn k H)) in Al. destruct Al. }
  constructor; cbn [s_next s_ses s_reg s_jobs s_next_job set_ses]; auto.
  - intros i Hi. rewrite upd_neq by lia. auto.
  - intros i Hi. destruct (Nat.eq_dec i k) as [->|N]; [rewrite upd_eq; destruct Ep as [-> | ->]; discriminate|rewrite upd_neq by exact N; auto].
  - intros id i Hr. destruct (Wr id i Hr) as [R1 R2]. destruct (Nat.eq_dec i k) as [->|N]; [rewrite upd_eq, Ei; split; [exact R1|]; destruct Ep as [-> | ->]; cbn; auto|rewrite upd_neq by exact N; auto].
  - intros i. destruct (Nat.eq_dec i k) as [->|N]; [|rewrite upd_neq by exact N; auto]. rewrite upd_eq, Eq. specialize (Wc k). rewrite Q in Wc. change (nses (WSession :: q)) with (S (nses q)) in Wc.
    assert (nses q = 0) as -> by (destruct (se_phase (s_ses s k)); cbn [waits] in Wc; cbn in Al; try destruct Al; lia). destruct Ep as [-> | ->]; reflexivity.
  - intros i. destruct (Nat.eq_dec i k) as [->|N]; [|rewrite upd_neq by exact N; auto]. rewrite upd_eq. intros [H|(c & w & H)]; destruct Ep; congruence.
  - intros j i m Hj. specialize (Wq j i m Hj). destruct (Nat.eq_dec i k) as [->|N]; [|now rewrite upd_neq by exact N]. rewrite upd_eq, Eq. rewrite Q in Wq. destruct Wq as [X|X]; [discriminate|exact X].
  - intros i c j. destruct (Nat.eq_dec i k) as [->|N]; [rewrite upd_eq; destruct Ep as [-> | ->]; discriminate|rewrite upd_neq by exact N; apply Ww].
Qed.
Lemma winv_end s k q : winv s -> se_queue (s_ses s k) = WSession :: q -> se_phase (s_ses s k) = Reading ->
  winv (set_ses (set_reg s (se_id (s_ses s k)) None) k (release (to_phase (s_ses s k) Over))).
Proof.
  intros [Wn Wo Wr Wc Wh Wj Wq Ww] Q Ep.
  assert (Lt : k < s_next s). { destruct (Nat.lt_ge_cases k (s_next s)) as [H|H]; [exact H|]. now rewrite (proj1 (Wn k H)) in Ep. }
  constructor; cbn [s_next s_ses s_reg s_jobs s_next_job set_ses set_reg release to_phase]; auto.
  - intros i Hi. rewrite upd_neq by lia. auto.
  - intros i Hi. destruct (Nat.eq_dec i k) as [->|N]; [rewrite upd_eq; discriminate|rewrite upd_neq by exact N; auto].
  - intros id i Hr. destruct (text_eq_dec id (se_id (s_ses s k))) as [->|Nid]; [rewrite put_eq in Hr; discriminate|]. rewrite put_neq in Hr by exact Nid. destruct (Wr id i Hr) as [R1 R2].
    destruct (Nat.eq_dec i k) as [->|N]; [congruence|rewrite upd_neq by exact N; auto].
  - intros i. destruct (Nat.eq_dec i k) as [->|N]; [|rewrite upd_neq by exact N; auto]. rewrite upd_eq. cbn. specialize (Wc k). rewrite Ep, Q in Wc. rewrite Q. cbn [tl]. change (nses (WSession :: q)) with (S (nses q)) in Wc. cbn [waits] in Wc. lia.
  - intros i. destruct (Nat.eq_dec i k) as [->|N]; [|rewrite upd_neq by exact N; auto]. rewrite upd_eq. cbn. intros [H|(c & w & H)]; discriminate.
  - intros j i m Hj. specialize (Wq j i m Hj). destruct (Nat.eq_dec i k) as [->|N]; [|now rewrite upd_neq by exact N]. rewrite upd_eq. cbn. rewrite Q in *. destruct Wq as [X|X]; [discriminate|exact X].
  - intros i c j. destruct (Nat.eq_dec i k) as [->|N]; [rewrite upd_eq; discriminate|rewrite upd_neq by exact N; apply Ww].
Qed.
(** Steps that change a phase and may put a waiter in the queue *)
Lemma winv_more s k se : winv s -> k < s_next s -> se_id se = se_id (s_ses s k) -> (exists l, se_queue se = se_queue (s_ses s k) ++ l) -> nses (se_queue se) = waits (se_phase se) ->
  (se_phase se = Reading \/ (exists c w, se_phase se = Working c w) -> exists q, se_queue se = WSession :: q) ->
  alive (se_phase se) -> (forall c j, se_phase se = Working c (Some j) -> s_jobs s j <> NoJob) -> winv (set_ses s k se).
Proof.
  intros [Wn Wo Wr Wc Wh Wj Wq Ww] Lt Ei [l El] Ec Eh Ea Ew. constructor; cbn [s_next s_ses s_reg s_jobs s_next_job set_ses]; auto.
  - intros i Hi. rewrite upd_neq by lia. auto.
  - intros i Hi. destruct (Nat.eq_dec i k) as [->|N]; [rewrite upd_eq; intros X; rewrite X in Ea; destruct Ea|rewrite upd_neq by exact N; auto].
  - intros id i Hr. destruct (Wr id i Hr) as [R1 R2]. destruct (Nat.eq_dec i k) as [->|N]; [rewrite upd_eq, Ei; auto|rewrite upd_neq by exact N; auto].
  - intros i. destruct (Nat.eq_dec i k) as [->|N]; [now rewrite upd_eq|rewrite upd_neq by exact N; auto].
  - intros i. destruct (Nat.eq_dec i k) as [->|N]; [now rewrite upd_eq|rewrite upd_neq by exact N; auto].
  - intros j i m Hj. specialize (Wq j i m Hj). destruct (Nat.eq_dec i k) as [->|N]; [|now rewrite upd_neq by exact N]. rewrite upd_eq, El, in_app_iff. auto.
  - intros i c j. destruct (Nat.eq_dec i k) as [->|N]; [rewrite upd_eq; apply Ew|rewrite upd_neq by exact N; apply Ww].
Qed.
Lemma winv_lt s k : winv s -> se_phase (s_ses s k) <> Absent -> k < s_next s.
Proof. intros I H. destruct (Nat.lt_ge_cases k (s_next s)) as [L|L]; [exact L|]. now apply (w_new s I) in L. Qed.
Lemma winv_job s x : winv s -> x <> NoJob -> (forall k m, x <> Queued k m) -> winv (new_job s x).
Proof.
  intros [Wn Wo Wr Wc Wh Wj Wq Ww] N Q. constructor; cbn [s_next s_ses s_reg s_jobs s_next_job new_job]; auto.
  - intros j Hj. rewrite upd_neq by lia. apply Wj. lia.
  - intros j k m H. destruct (Nat.eq_dec j (s_next_job s)) as [->|Nj]; [rewrite upd_eq in H; now apply Q in H|rewrite upd_neq in H by exact Nj; now apply (Wq j k m)].
  - intros k c j H. destruct (Nat.eq_dec j (s_next_job s)) as [->|Nj]; [now rewrite upd_eq|rewrite upd_neq by exact Nj; eapply Ww; eauto].
Qed.
Lemma winv_step s es s' : winv s -> step s es s' -> winv s'.
Proof.
  intros I H. destruct H as [s id|s k P|s k P|s k q P Q|s k f c P F|s k f P F|s k f P F|s k f P F|s k P|s k c w P D|s k c P|s k c id m P|s id m|s j id m k J R|s j id m J R|s j k m q J Q].
  - (* open *) destruct I as [Wn Wo Wr Wc Wh Wj Wq Ww]. constructor; cbn [s_next s_ses s_reg s_jobs s_next_job]; auto.
    + intros i Hi. rewrite upd_neq by lia. apply Wn. lia.
    + intros i Hi. destruct (Nat.eq_dec i (s_next s)) as [->|N]; [rewrite upd_eq; discriminate|rewrite upd_neq by exact N; apply Wo; lia].
    + intros i k Hr. destruct (Wr i k Hr) as [R1 R2]. destruct (Nat.eq_dec k (s_next s)) as [->|N]; [|now rewrite upd_neq by exact N]. rewrite (proj1 (Wn _ (le_n _))) in R2. destruct R2 as [[]|R2]; discriminate.
    + intros i. destruct (Nat.eq_dec i (s_next s)) as [->|N]; [now rewrite upd_eq|now rewrite upd_neq by exact N].
    + intros i. destruct (Nat.eq_dec i (s_next s)) as [->|N]; [rewrite upd_eq; intros [H|(c & w & H)]; discriminate|rewrite upd_neq by exact N; auto].
    + intros j k m Hj. specialize (Wq j k m Hj). destruct (Nat.eq_dec k (s_next s)) as [->|N]; [|now rewrite upd_neq by exact N]. rewrite (proj2 (Wn _ (le_n _))) in Wq. destruct Wq.
    + intros i c j. destruct (Nat.eq_dec i (s_next s)) as [->|N]; [rewrite upd_eq; discriminate|rewrite upd_neq by exact N; apply Ww].
  - (* add *) pose proof (winv_lt s k I ltac:(congruence)) as Lt. destruct I as [Wn Wo Wr Wc Wh Wj Wq Ww]. constructor; cbn [s_next s_ses s_reg s_jobs s_next_job set_ses set_reg to_phase]; auto.
    + intros i Hi. rewrite upd_neq by lia. auto.
    + intros i Hi. destruct (Nat.eq_dec i k) as [->|N]; [rewrite upd_eq; discriminate|rewrite upd_neq by exact N; auto].
    + intros id i Hr. destruct (text_eq_dec id (se_id (s_ses s k))) as [->|Nid].
      * rewrite put_eq in Hr. injection Hr as <-. rewrite upd_eq. cbn. auto.
      * rewrite put_neq in Hr by exact Nid. destruct (Wr id i Hr) as [R1 R2]. destruct (Nat.eq_dec i k) as [->|N]; [congruence|rewrite upd_neq by exact N; auto].
    + intros i. destruct (Nat.eq_dec i k) as [->|N]; [rewrite upd_eq; cbn; now rewrite Wc, P|now rewrite upd_neq by exact N].
    + intros i. destruct (Nat.eq_dec i k) as [->|N]; [rewrite upd_eq; intros [H|(c & w & H)]; discriminate|rewrite upd_neq by exact N; auto].
    + intros j i m Hj. specialize (Wq j i m Hj). destruct (Nat.eq_dec i k) as [->|N]; [now rewrite upd_eq|now rewrite upd_neq by exact N].
    + intros i c j. destruct (Nat.eq_dec i k) as [->|N]; [rewrite upd_eq; discriminate|rewrite upd_neq by exact N; apply Ww].
  - (* ask *) apply winv_more; auto; cbn; auto; try (intros; discriminate).
    + apply winv_lt; auto; congruence.
    + eauto.
    + rewrite nses_app, (w_count s I k), P. reflexivity.
    + intros [X|(? & ? & X)]; discriminate.
  - (* lock *) apply winv_more; auto; cbn; auto; try (intros; discriminate).
    + apply winv_lt; auto; congruence.
    + exists []. now rewrite app_nil_r.
    + now rewrite (w_count s I k), P.
    + eauto.
  - (* call *) apply winv_more; auto; cbn; auto; try (intros; discriminate).
    + apply winv_lt; auto; congruence.
    + exists []. now rewrite app_nil_r.
    + now rewrite (w_count s I k), P.
    + intros _. apply (w_head s I). auto.
  - destruct (w_head s I k (or_introl P)) as [q Q]. apply winv_ses with q; cbn; auto; [now rewrite Q|now rewrite P].
  - destruct (w_head s I k (or_introl P)) as [q Q]. now apply winv_end with q.
  - destruct (w_head s I k (or_introl P)) as [q Q]. apply winv_ses with q; cbn; auto; [now rewrite Q|now rewrite P].
  - destruct (w_head s I k (or_introl P)) as [q Q]. now apply winv_end with q.
  - destruct (w_head s I k) as [q Q]; [eauto|]. apply winv_ses with q; cbn; auto; [now rewrite Q|now rewrite P].
  - destruct (w_head s I k) as [q Q]; [eauto|]. apply winv_ses with q; cbn; auto; [now rewrite Q|now rewrite P].
  - (* handler sends *)
    assert (I' : winv (new_job s (Looking id m))) by (apply winv_job; auto; discriminate).
    change (winv (set_ses (new_job s (Looking id m)) k (to_phase (s_ses s k) (Working c (Some (s_next_job s)))))). apply winv_more; auto; cbn; auto.
    + apply winv_lt; auto; congruence.
    + exists []. now rewrite app_nil_r.
    + now rewrite (w_count s I k), P.
    + intros _. apply (w_head s I). eauto.
    + intros c' j' X. injection X as _ <-. rewrite upd_eq. discriminate.
  - apply winv_job; auto; discriminate.
  - (* found *) destruct (w_reg s I id k R) as [R1 R2]. destruct I as [Wn Wo Wr Wc Wh Wj Wq Ww]. constructor; cbn [s_next s_ses s_reg s_jobs s_next_job set_ses set_job enqueue]; auto.
    + intros i Hi. destruct (Nat.eq_dec i k) as [->|N]; [|rewrite upd_neq by exact N; auto]. rewrite (proj1 (Wn k Hi)) in R2. destruct R2 as [[]|R2]; discriminate.
    + intros i Hi. destruct (Nat.eq_dec i k) as [->|N]; [rewrite upd_eq; cbn; auto|rewrite upd_neq by exact N; auto].
    + intros id' i Hr. destruct (Nat.eq_dec i k) as [->|N]; [rewrite upd_eq; cbn; auto|rewrite upd_neq by exact N; auto].
    + intros i. destruct (Nat.eq_dec i k) as [->|N]; [rewrite upd_eq; cbn; rewrite nses_app, Wc; apply Nat.add_0_r|now rewrite upd_neq by exact N].
    + intros i. destruct (Nat.eq_dec i k) as [->|N]; [|rewrite upd_neq by exact N; auto]. rewrite upd_eq. cbn. intros H. destruct (Wh k H) as [q Q]. rewrite Q. cbn. eauto.
    + intros i Hi. destruct (Nat.eq_dec i j) as [->|N]; [|rewrite upd_neq by exact N; auto]. rewrite (Wj j Hi) in J. discriminate.
    + intros i k' m' H. destruct (Nat.eq_dec i j) as [->|N].
      * rewrite upd_eq in H. injection H as <- <-. rewrite upd_eq. cbn. rewrite in_app_iff. cbn. auto.
      * rewrite upd_neq in H by exact N. specialize (Wq i k' m' H). destruct (Nat.eq_dec k' k) as [->|Nk]; [rewrite upd_eq; cbn; rewrite in_app_iff; auto|now rewrite upd_neq by exact Nk].
    + intros i c i2 H. assert (H' : se_phase (s_ses s i) = Working c (Some i2)) by (destruct (Nat.eq_dec i k) as [->|N]; [now rewrite upd_eq in H|now rewrite upd_neq in H by exact N]).
      destruct (Nat.eq_dec i2 j) as [->|Nj]; [rewrite upd_eq; discriminate|rewrite upd_neq by exact Nj; eapply Ww; eauto].
  - (* not found *) destruct I as [Wn Wo Wr Wc Wh Wj Wq Ww]. constructor; cbn [s_next s_ses s_reg s_jobs s_next_job set_job]; auto.
    + intros i Hi. destruct (Nat.eq_dec i j) as [->|N]; [|rewrite upd_neq by exact N; auto]. rewrite (Wj j Hi) in J. discriminate.
    + intros i k' m' H. destruct (Nat.eq_dec i j) as [->|N]; [rewrite upd_eq in H; discriminate|rewrite upd_neq in H by exact N; eapply Wq; eauto].
    + intros i c i2 H. destruct (Nat.eq_dec i2 j) as [->|Nj]; [rewrite upd_eq; discriminate|rewrite upd_neq by exact Nj; eapply Ww; eauto].
  - (* deliver *) destruct I as [Wn Wo Wr Wc Wh Wj Wq Ww]. constructor; cbn [s_next s_ses s_reg s_jobs s_next_job set_ses set_job release]; auto.
    + intros i Hi. destruct (Nat.eq_dec i k) as [->|N]; [|rewrite upd_neq by exact N; auto]. rewrite (proj2 (Wn k Hi)) in Q. discriminate.
    + intros i Hi. destruct (Nat.eq_dec i k) as [->|N]; [rewrite upd_eq; cbn; auto|rewrite upd_neq by exact N; auto].
    + intros id' i Hr. destruct (Nat.eq_dec i k) as [->|N]; [rewrite upd_eq; cbn; auto|rewrite upd_neq by exact N; auto].
    + intros i. destruct (Nat.eq_dec i k) as [->|N]; [|now rewrite upd_neq by exact N]. rewrite upd_eq. cbn. specialize (Wc k). rewrite Q in *. exact Wc.
    + intros i. destruct (Nat.eq_dec i k) as [->|N]; [|rewrite upd_neq by exact N; auto]. rewrite upd_eq. cbn. intros H. destruct (Wh k H) as [q' Q']. congruence.
    + intros i Hi. destruct (Nat.eq_dec i j) as [->|N]; [|rewrite upd_neq by exact N; auto]. rewrite (Wj j Hi) in J. discriminate.
    + intros i k' m' H. destruct (Nat.eq_dec i j) as [->|N]; [rewrite upd_eq in H; discriminate|]. rewrite upd_neq in H by exact N. specialize (Wq i k' m' H).
      destruct (Nat.eq_dec k' k) as [->|Nk]; [|now rewrite upd_neq by exact Nk]. rewrite upd_eq. cbn. rewrite Q in *. destruct Wq as [X|X]; [congruence|exact X].
    + intros i c i2 H. assert (H' : se_phase (s_ses s i) = Working c (Some i2)) by (destruct (Nat.eq_dec i k) as [->|N]; [now rewrite upd_eq in H|now rewrite upd_neq in H by exact N]).
      destruct (Nat.eq_dec i2 j) as [->|Nj]; [rewrite upd_eq; discriminate|rewrite upd_neq by exact Nj; eapply Ww; eauto].
Qed.
Lemma run_winv s tr s' : run s tr s' -> winv s -> winv s'.
Proof. induction 1 as [|s tr s1 es s2 H IH Hs]; intros I; [exact I|]. exact (winv_step _ _ _ (IH I) Hs). Qed.

(** What a step does to one session *)
Lemma phase_step s es s' k : step s es s' -> k < s_next s ->
  k < s_next s' /\ se_id (s_ses s' k) = se_id (s_ses s k) /\
  (se_phase (s_ses s' k) = se_phase (s_ses s k) \/
   match se_phase (s_ses s k), se_phase (s_ses s' k) with
   | Starting, Pausing | Pausing, Asking | Asking, Reading | Working _ None, Crashed | Working _ None, Working _ (Some _) => True
   | Reading, Crashed => In (EFrame k (FBinary [])) es
   | Reading, Pausing => exists f, In (EFrame k f) es
   | Reading, Working c None => exists f, process f = Call c /\ es = [EFrame k f; ECall k c]
   | Working _ w, Pausing => In (EReturn k) es /\ forall j, w = Some j -> s_jobs s j = Sent \/ s_jobs s j = NotHere
   | Reading, Over => In (EEnd k) es /\ (In (EFrame k FClose) es \/ In (EGone k) es)
   | _, _ => False
   end).
Proof.
  intros H Lt. destruct H as [s id|s i P|s i P|s i q P Q|s i f c P F|s i f P F|s i f P F|s i f P F|s i P|s i c w P D|s i c P|s i c id m P|s id m|s j id m i J R|s j id m J R|s j i m q J Q];
    cbn [s_next s_ses set_ses set_reg set_job new_job to_phase release enqueue]; (split; [lia|]); auto.
  1: { rewrite upd_neq by lia. auto. }
  all: destruct (Nat.eq_dec k i) as [->|N]; [rewrite upd_eq; cbn; split; [reflexivity|]; first [left; reflexivity|right; rewrite P; cbn; try (apply process_crash in F; subst f); try (apply process_break in F; subst f); eauto 10; try (destruct w; cbn; auto)]|rewrite upd_neq by exact N; auto].
Qed.
Lemma next_mono s es s' : step s es s' -> s_next s <= s_next s'.
Proof. intros []; cbn; lia. Qed.
Lemma run_next s tr s' : run s tr s' -> s_next s <= s_next s'.
Proof. induction 1 as [|s tr s1 es s2 H IH Hs]; [lia|]. apply next_mono in Hs. lia. Qed.
Lemma event_session s es s' : winv s -> step s es s' -> forall e k, In e es -> (exists f, e = EFrame k f) \/ e = EGone k \/ (exists c, e = ECall k c) \/ e = EReturn k \/ e = EEnd k \/ e = ECrash k -> k < s_next s.
Proof.
  intros I H e k Hin He.
  assert (A : se_phase (s_ses s k) <> Absent).
  { destruct H; cbn in Hin; repeat destruct Hin as [Hin|Hin]; subst; try contradiction; repeat match goal with X : _ \/ _ |- _ => destruct X | X : exists _, _ |- _ => destruct X end; try discriminate;
      match goal with X : _ = _ |- _ => injection X; intros; subst end; congruence. }
  now apply (winv_lt s k I).
Qed.
Lemma over_stays s es s' k : step s es s' -> k < s_next s -> se_phase (s_ses s k) = Over -> se_phase (s_ses s' k) = Over.
Proof. intros H Lt P. destruct (phase_step _ _ _ k H Lt) as (_ & _ & [X|X]); [congruence|]. rewrite P in X. destruct X. Qed.
Lemma ended tr s k : run init tr s -> In (EEnd k) tr -> k < s_next s /\ se_phase (s_ses s k) = Over.
Proof.
  intros H. remember init as s0 eqn:E. revert E. induction H as [|s0 tr s1 es s2 H IH Hs]; intros -> Hin; [destruct Hin|]. pose proof (run_winv _ _ _ H winv_init) as I.
  rewrite in_app_iff in Hin. destruct Hin as [Hin|Hin].
  - destruct (IH eq_refl Hin) as [L P]. split; [apply next_mono in Hs; lia|]. now apply over_stays with s1 es.
  - assert (L : k < s_next s1) by (eapply event_session; eauto 10). split; [apply next_mono in Hs; lia|].
    destruct Hs; cbn in Hin; repeat destruct Hin as [Hin|Hin]; try discriminate; try contradiction; injection Hin as ->; cbn; now rewrite upd_eq.
Qed.
Lemma opened tr s k id : run init tr s -> In (EOpen k id) tr -> k < s_next s /\ se_id (s_ses s k) = id.
Proof.
  intros H. remember init as s0 eqn:E. revert E. induction H as [|s0 tr s1 es s2 H IH Hs]; intros -> Hin; [destruct Hin|].
  rewrite in_app_iff in Hin. destruct Hin as [Hin|Hin].
  - destruct (IH eq_refl Hin) as [L P]. destruct (phase_step _ _ _ k Hs L) as (L' & X & _). split; [exact L'|congruence].
  - destruct Hs; cbn in Hin; repeat destruct Hin as [Hin|Hin]; try discriminate; try contradiction. injection Hin as <- <-. cbn. rewrite upd_eq. split; [lia|reflexivity].
Qed.
Lemma all_opened tr s k : run init tr s -> k < s_next s -> In (EOpen k (se_id (s_ses s k))) tr.
Proof.
  intros H. remember init as s0 eqn:E. revert E. induction H as [|s0 tr s1 es s2 H IH Hs]; intros -> L; [cbn in L; lia|]. rewrite in_app_iff.
  destruct (Nat.lt_ge_cases k (s_next s1)) as [L1|L1].
  - left. destruct (phase_step _ _ _ k Hs L1) as (_ & X & _). rewrite X. now apply IH.
  - right. destruct Hs; cbn in *; try lia. assert (k = s_next s) by lia. subst k. rewrite upd_eq. cbn. auto.
Qed.
Lemma distinct_back s es s' : step s es s' -> distinct_ids s' -> distinct_ids s.
Proof.
  intros H D k k' L L' E. destruct (phase_step _ _ _ k H L) as (A1 & A2 & _), (phase_step _ _ _ k' H L') as (B1 & B2 & _). apply D; auto. congruence.
Qed.
Definition kept (p : phase) : Prop := match p with Absent | Starting | Over => False | _ => True end.
Lemma registered_kept tr s : run init tr s -> distinct_ids s -> forall k, kept (se_phase (s_ses s k)) -> s_reg s (se_id (s_ses s k)) = Some k.
Proof.
  intros H. remember init as s0 eqn:E. revert E. induction H as [|s0 tr s1 es s2 H IH Hs]; intros -> D k A; [destruct A|].
  pose proof (run_winv _ _ _ H winv_init) as I. pose proof (winv_step _ _ _ I Hs) as I2. pose proof (distinct_back _ _ _ Hs D) as D1. specialize (IH eq_refl D1).
  assert (L2 : k < s_next s2) by (apply (winv_lt s2 k I2); intros X; rewrite X in A; destruct A).
  assert (DEL : forall i, se_phase (s_ses s1 i) = Reading -> i <> k -> k < s_next s1 -> se_id (s_ses s1 k) <> se_id (s_ses s1 i)).
  { intros i P N L X. apply N. apply D1; auto. apply (winv_lt s1 i I). congruence. }
  destruct Hs as [s id|s i P|s i P|s i q P Q|s i f c P F|s i f P F|s i f P F|s i f P F|s i P|s i c w P X|s i c P|s i c id m P|s id m|s j id m i J R|s j id m J R|s j i m q J Q];
    cbn [s_next s_ses s_reg set_ses set_reg set_job new_job to_phase release enqueue] in *; auto.
  - destruct (Nat.eq_dec k (s_next s)) as [->|N]; [rewrite upd_eq in A; destruct A|]. rewrite upd_neq in * by exact N. auto.
  - destruct (Nat.eq_dec k i) as [->|N]; [rewrite upd_eq in *; cbn in *; apply put_eq|]. rewrite upd_neq in * by exact N. rewrite put_neq; auto. intros X. apply N. apply D1; auto; [apply (winv_lt s i I); congruence].
  - destruct (Nat.eq_dec k i) as [->|N]; [rewrite upd_eq in *; cbn in *; apply IH; now rewrite P|rewrite upd_neq in * by exact N; auto].
  - destruct (Nat.eq_dec k i) as [->|N]; [rewrite upd_eq in *; cbn in *; apply IH; now rewrite P|rewrite upd_neq in * by exact N; auto].
  - destruct (Nat.eq_dec k i) as [->|N]; [rewrite upd_eq in *; cbn in *; apply IH; now rewrite P|rewrite upd_neq in * by exact N; auto].
  - destruct (Nat.eq_dec k i) as [->|N]; [rewrite upd_eq in *; cbn in *; apply IH; now rewrite P|rewrite upd_neq in * by exact N; auto].
  - destruct (Nat.eq_dec k i) as [->|N]; [rewrite upd_eq in A; destruct A|]. rewrite upd_neq in * by exact N. rewrite put_neq; auto.
  - destruct (Nat.eq_dec k i) as [->|N]; [rewrite upd_eq in *; cbn in *; apply IH; now rewrite P|rewrite upd_neq in * by exact N; auto].
  - destruct (Nat.eq_dec k i) as [->|N]; [rewrite upd_eq in A; destruct A|]. rewrite upd_neq in * by exact N. rewrite put_neq; auto.
  - destruct (Nat.eq_dec k i) as [->|N]; [rewrite upd_eq in *; cbn in *; apply IH; now rewrite P|rewrite upd_neq in * by exact N; auto].
  - destruct (Nat.eq_dec k i) as [->|N]; [rewrite upd_eq in *; cbn in *; apply IH; now rewrite P|rewrite upd_neq in * by exact N; auto].
  - destruct (Nat.eq_dec k i) as [->|N]; [rewrite upd_eq in *; cbn in *; apply IH; now rewrite P|rewrite upd_neq in * by exact N; auto].
  - destruct (Nat.eq_dec k i) as [->|N]; [rewrite upd_eq in *; cbn in *; now apply IH|rewrite upd_neq in * by exact N; auto].
  - destruct (Nat.eq_dec k i) as [->|N]; [rewrite upd_eq in *; cbn in *; now apply IH|rewrite upd_neq in * by exact N; auto].
Qed.
Lemma registered tr s : run init tr s -> distinct_ids s -> forall k, alive (se_phase (s_ses s k)) -> s_reg s (se_id (s_ses s k)) = Some k.
Proof. intros H D k A. apply (registered_kept tr s H D k). now destruct (se_phase (s_ses s k)). Qed.
Lemma crashed tr s k : run init tr s -> In (ECrash k) tr -> se_phase (s_ses s k) = Crashed.
Proof.
  intros H. remember init as s0 eqn:E. revert E. induction H as [|s0 tr s1 es s2 H IH Hs]; intros -> Hin; [destruct Hin|]. pose proof (run_winv _ _ _ H winv_init) as I.
  rewrite in_app_iff in Hin. destruct Hin as [Hin|Hin].
  - specialize (IH eq_refl Hin). assert (L : k < s_next s1) by (apply winv_lt; auto; congruence). destruct (phase_step _ _ _ k Hs L) as (_ & _ & [X|X]); [congruence|]. rewrite IH in X. destruct X.
  - destruct Hs; cbn in Hin; repeat destruct Hin as [Hin|Hin]; try discriminate; try contradiction; injection Hin as ->; cbn; now rewrite upd_eq.
Qed.

(** What a step does to the lock of one session *)
Ltac nd := let X := fresh in intros ? ? X; cbn in X; intuition (try discriminate; try congruence).
Lemma queue_step s es s' k : winv s -> step s es s' -> k < s_next s ->
  (exists l, se_queue (s_ses s' k) = se_queue (s_ses s k) ++ l /\ (forall j m, ~ In (EDeliver j k m) es) /\
     (l = [] \/ (l = [WSession] /\ se_phase (s_ses s k) = Pausing /\ se_phase (s_ses s' k) = Asking) \/ exists j, l = [WSend j])) \/
  (exists q, se_queue (s_ses s k) = WSession :: q /\ se_queue (s_ses s' k) = q /\ (forall j m, ~ In (EDeliver j k m) es) /\
     (se_phase (s_ses s k) = Reading \/ exists c w, se_phase (s_ses s k) = Working c w) /\ (se_phase (s_ses s' k) = Pausing \/ se_phase (s_ses s' k) = Over \/ se_phase (s_ses s' k) = Crashed)) \/
  (exists j m q, se_queue (s_ses s k) = WSend j :: q /\ se_queue (s_ses s' k) = q /\ es = [EDeliver j k m] /\ se_phase (s_ses s' k) = se_phase (s_ses s k) /\ s_jobs s j = Queued k m).
Proof.
  intros I H Lt.
  destruct H as [s id|s i P|s i P|s i q' P Q|s i f c P F|s i f P F|s i f P F|s i f P F|s i P|s i c w P X|s i c P|s i c id m P|s id m|s j id m i J R|s j id m J R|s j i m q' J Q];
    cbn [s_next s_ses set_ses set_reg set_job new_job to_phase release enqueue].
  1: { left. exists []. rewrite upd_neq by lia. rewrite app_nil_r. repeat split; auto; nd. }
  all: try (left; exists []; rewrite app_nil_r; repeat split; auto; nd; fail).
  all: (destruct (Nat.eq_dec k i) as [->|N]; [rewrite upd_eq; unfold release, to_phase, enqueue; cbn [se_queue se_phase]|left; exists []; rewrite upd_neq by exact N; rewrite app_nil_r; repeat split; auto; nd]).
  all: try (left; exists []; rewrite app_nil_r; repeat split; auto; nd; fail).
  all: try (right; left; destruct (w_head s I i) as [q Q]; [eauto|]; exists q; rewrite Q; cbn [tl]; repeat split; eauto; nd; fail).
  - left. exists [WSession]. repeat split; auto.
  - left. exists [WSend j]. repeat split; eauto.
  - right. right. exists j, m, q'. rewrite Q. cbn [tl]. repeat split; auto.
Qed.
Lemma looking_step s es s' j id m : winv s -> step s es s' -> s_jobs s j = Looking id m ->
  s_jobs s' j = Looking id m \/ (s_reg s id = None /\ s_jobs s' j = NotHere) \/ exists k, s_reg s id = Some k /\ s_jobs s' j = Queued k m.
Proof.
  intros I H Hj. assert (L : j <> s_next_job s) by (intros ->; rewrite (w_jobs s I _ (le_n _)) in Hj; discriminate).
  destruct H as [s id0|s i P|s i P|s i q' P Q|s i f c P F|s i f P F|s i f P F|s i f P F|s i P|s i c w P X|s i c P|s i c id0 m0 P|s id0 m0|s j0 id0 m0 i J R|s j0 id0 m0 J R|s j0 i m0 q' J Q];
    cbn [s_next s_jobs set_ses set_reg set_job new_job]; auto; try (rewrite upd_neq by exact L; auto; fail).
  all: destruct (Nat.eq_dec j j0) as [->|N]; [rewrite upd_eq|rewrite upd_neq by exact N; auto].
  - rewrite J in Hj. injection Hj as <- <-. right. right. eauto.
  - rewrite J in Hj. injection Hj as <- <-. auto.
  - congruence.
Qed.
Lemma queued_step s es s' j k m : winv s -> step s es s' -> s_jobs s j = Queued k m ->
  s_jobs s' j = Queued k m \/ (s_jobs s' j = Sent /\ es = [EDeliver j k m] /\ exists q, se_queue (s_ses s k) = WSend j :: q).
Proof.
  intros I H Hj. assert (L : j <> s_next_job s) by (intros ->; rewrite (w_jobs s I _ (le_n _)) in Hj; discriminate).
  destruct H as [s id0|s i P|s i P|s i q' P Q|s i f c P F|s i f P F|s i f P F|s i f P F|s i P|s i c w P X|s i c P|s i c id0 m0 P|s id0 m0|s j0 id0 m0 i J R|s j0 id0 m0 J R|s j0 i m0 q' J Q];
    cbn [s_next s_jobs set_ses set_reg set_job new_job]; auto; try (rewrite upd_neq by exact L; auto; fail).
  all: destruct (Nat.eq_dec j j0) as [->|N]; [rewrite upd_eq|rewrite upd_neq by exact N; auto]; try congruence.
  rewrite J in Hj. injection Hj as -> ->. right. eauto.
Qed.
Lemma deliver_job s es s' j k m : step s es s' -> In (EDeliver j k m) es -> s_jobs s j = Queued k m /\ exists q, se_queue (s_ses s k) = WSend j :: q.
Proof. intros [] Hin; cbn in Hin; repeat destruct Hin as [Hin|Hin]; try discriminate; try contradiction. injection Hin as <- <- <-. eauto. Qed.
Lemma frame_reading s es s' k f : step s es s' -> In (EFrame k f) es -> se_phase (s_ses s k) = Reading.
Proof. intros [] Hin; cbn in Hin; repeat destruct Hin as [Hin|Hin]; try discriminate; try contradiction; now injection Hin as <- <-. Qed.

(** While a session reads, only an arriving frame moves it, and nobody else has the lock. *)
Lemma reading_run s tr s' k : winv s -> se_phase (s_ses s k) = Reading -> run s tr s' -> (forall f, ~ In (EFrame k f) tr) -> ~ In (EGone k) tr ->
  se_phase (s_ses s' k) = Reading /\ forall j m, ~ In (EDeliver j k m) tr.
Proof.
  intros I P H. revert I P. induction H as [|s tr s1 es s2 H IH Hs]; intros I P N1 N2; [split; [exact P|intros j m []]|].
  destruct IH as [P1 D]; auto; [intros f X; apply (N1 f); rewrite in_app_iff; auto|intros X; apply N2; rewrite in_app_iff; auto|].
  pose proof (run_winv _ _ _ H I) as I1. assert (L : k < s_next s1) by (apply winv_lt; auto; congruence).
  assert (M1 : forall f, ~ In (EFrame k f) es) by (intros f X; apply (N1 f); rewrite in_app_iff; auto). assert (M2 : ~ In (EGone k) es) by (intros X; apply N2; rewrite in_app_iff; auto).
  split.
  - destruct (phase_step _ _ _ k Hs L) as (_ & _ & [E|E]); [congruence|]. rewrite P1 in E. destruct (se_phase (s_ses s2 k)) as [| | | | |c [w|]| |]; try destruct E; auto.
    + now destruct (M1 x).
    + destruct H0 as [_ ->]. elim (M1 x). now left.
    + destruct H1 as [X|X]; [now apply M1 in X|now apply M2 in X].
    + now apply M1 in E.
  - intros j m X. rewrite in_app_iff in X. destruct X as [X|X]; [now apply (D j m)|]. destruct (deliver_job _ _ _ _ _ _ Hs X) as [_ [q Q]]. destruct (w_head s1 I1 k (or_introl P1)) as [q' Q']. congruence.
Qed.
(** A handler that waits for a message to its own client waits for ever. *)
Lemma stuck_run tr0 s tr s' k c j m : run init tr0 s -> se_phase (s_ses s k) = Working c (Some j) -> s_jobs s j = Looking (se_id (s_ses s k)) m -> run s tr s' -> distinct_ids s' ->
  se_phase (s_ses s' k) = Working c (Some j) /\ (s_jobs s' j = Looking (se_id (s_ses s' k)) m \/ s_jobs s' j = Queued k m) /\ (forall j' m', ~ In (EDeliver j' k m') tr) /\ (forall f, ~ In (EFrame k f) tr) /\ ~ In (EReturn k) tr /\ (forall k' m', ~ In (EDeliver j k' m') tr).
Proof.
  intros H0 P J H. revert H0 P J. induction H as [|s tr s1 es s2 H IH Hs]; intros H0 P J D; [repeat split; auto|].
  pose proof (distinct_back _ _ _ Hs D) as D1. destruct (IH H0 P J D1) as (P1 & J1 & E1 & E2 & E3 & E4). pose proof (run_app _ _ _ _ _ H0 H) as R1. pose proof (run_winv _ _ _ R1 winv_init) as I1.
  assert (L : k < s_next s1) by (apply winv_lt; auto; congruence).
  assert (Rg : s_reg s1 (se_id (s_ses s1 k)) = Some k) by (apply (registered _ _ R1 D1 k); rewrite P1; exact Logic.I).
  destruct (w_head s1 I1 k) as [q Q]; [eauto|].
  assert (JJ : s_jobs s1 j <> Sent /\ s_jobs s1 j <> NotHere) by (destruct J1 as [X|X]; rewrite X; split; discriminate).
  destruct (phase_step _ _ _ k Hs L) as (_ & Id & Ph).
  assert (P2 : se_phase (s_ses s2 k) = Working c (Some j)).
  { destruct Ph as [X|X]; [congruence|]. rewrite P1 in X. destruct (se_phase (s_ses s2 k)) as [| | | | |c' [w|]| |]; try destruct X. destruct (H2 j eq_refl); tauto. }
  split; [exact P2|]. split.
  { destruct J1 as [X|X].
    - destruct (looking_step _ _ _ _ _ _ I1 Hs X) as [Y|[[Y _]|(k' & Y & Z)]]; [left; congruence|congruence|right; congruence].
    - destruct (queued_step _ _ _ _ _ _ I1 Hs X) as [Y|(_ & _ & q' & Y)]; [auto|congruence]. }
  split; [|split; [|split]].
  - intros j' m' X. rewrite in_app_iff in X. destruct X as [X|X]; [now apply (E1 j' m')|]. destruct (deliver_job _ _ _ _ _ _ Hs X) as [_ [q' Q']]. congruence.
  - intros f X. rewrite in_app_iff in X. destruct X as [X|X]; [now apply (E2 f)|]. apply (frame_reading _ _ _ _ _ Hs) in X. congruence.
  - intros X. rewrite in_app_iff in X. destruct X as [X|X]; [now apply E3|].
    destruct Hs; cbn in X; repeat destruct X as [X|X]; try discriminate; try contradiction. injection X as ->. cbn in P2. rewrite upd_eq in P2. discriminate.
  - intros k' m' X. rewrite in_app_iff in X. destruct X as [X|X]; [now apply (E4 k' m')|]. destruct (deliver_job _ _ _ _ _ _ Hs X) as [Y [q' Q']]. destruct J1 as [Z|Z]; rewrite Z in Y; [discriminate|]. injection Y as <- <-. congruence.
Qed.
(** Messages queued for a session that reads are written before it reads again. *)
Definition before (s : state) (k j : nat) (m : text) : Prop :=
  s_jobs s j = Queued k m /\ exists l r, ~ In WSession l /\ se_queue (s_ses s k) = l ++ WSend j :: r /\ ~ (se_phase (s_ses s k) = Reading \/ exists c w, se_phase (s_ses s k) = Working c w).
Definition behind (s : state) (k j : nat) (m : text) : Prop :=
  s_jobs s j = Queued k m /\ exists l r, ~ In WSession l /\ se_queue (s_ses s k) = WSession :: l ++ WSend j :: r /\ exists c w, se_phase (s_ses s k) = Working c w.
Lemma before_step s es s' k j m : winv s -> step s es s' -> before s k j m \/ behind s k j m -> before s' k j m \/ behind s' k j m \/ es = [EDeliver j k m].
Proof.
  intros I H B. pose proof (winv_step _ _ _ I H) as I'.
  assert (J : s_jobs s j = Queued k m) by (destruct B as [[J _]|[J _]]; exact J).
  destruct (queued_step _ _ _ _ _ _ I H J) as [J'|(_ & X & _)]; [|auto].
  assert (Q0 : se_phase (s_ses s k) <> Absent). { pose proof (w_queued s I j k m J) as X. intros Y. destruct (Nat.lt_ge_cases k (s_next s)) as [L|L]; [now apply (w_old s I k L)|]. rewrite (proj2 (w_new s I k L)) in X. destruct X. }
  assert (L : k < s_next s) by (now apply winv_lt).
  destruct (phase_step _ _ _ k H L) as (_ & _ & Ph).
  destruct B as [(_ & l & r & Nl & Q & Np)|(_ & l & r & Nl & Q & c & w & Pw)].
  - left. split; [exact J'|]. destruct (queue_step _ _ _ _ I H L) as [(l' & Q' & _ & Hl)|[(q & Qs & _ & _ & Pr & _)|(j' & m' & q & Qs & Q' & -> & Pe & Jq)]].
    + exists l, (r ++ l'). split; [exact Nl|]. split; [rewrite Q', Q, <- app_assoc; reflexivity|].
      intros X. destruct Ph as [Y|Y]; [apply Np; destruct X as [X|(c & w & X)]; [left; congruence|right; exists c, w; congruence]|].
      destruct X as [X|(c & w & X)]; rewrite X in Y.
      * (* it cannot have got the lock *) assert (Qh : exists q, se_queue (s_ses s' k) = WSession :: q) by (apply (w_head s' I'); auto). destruct Qh as [q Qh]. rewrite Q', Q in Qh. destruct l as [|w0 l]; [discriminate|]. cbn in Qh. injection Qh as -> _. apply Nl. now left.
      * destruct (se_phase (s_ses s k)) eqn:Pk; try destruct Y; apply Np; eauto.
    + elim Np. exact Pr.
    + destruct l as [|w0 l]; [cbn in Q; rewrite Qs in Q; injection Q as Ej Er; subst j' r|].
      * rewrite J in Jq. injection Jq as <-. exfalso. assert (Sx : s_jobs s' j = Sent). { clear - H. inversion H; subst; cbn. apply upd_eq. } congruence.
      * cbn in Q. rewrite Qs in Q. injection Q as Ew Eq. subst w0 q. exists l, r. split; [intros X; apply Nl; now right|]. split; [exact Q'|]. now rewrite Pe.
  - destruct (queue_step _ _ _ _ I H L) as [(l' & Q' & _ & Hl)|[(q & Qs & Q' & _ & _ & Pr)|(j' & m' & q & Qs & Q' & -> & Pe & Jq)]].
    + right. left. split; [exact J'|]. exists l, (r ++ l'). split; [exact Nl|]. split; [rewrite Q', Q; cbn; rewrite <- app_assoc; reflexivity|].
      destruct Ph as [Y|Y]; [exists c, w; congruence|]. rewrite Pw in Y. destruct (se_phase (s_ses s' k)) as [| | | | |c' [w'|]| |] eqn:P'; try (destruct w; destruct Y; fail); eauto.
      * (* the lock would be gone *) exfalso. pose proof (w_count s' I' k) as C. rewrite P', Q', Q in C. discriminate C.
      * exfalso. pose proof (w_count s' I' k) as C. rewrite P', Q', Q in C. discriminate C.
    + left. split; [exact J'|]. rewrite Q in Qs. injection Qs as <-. exists l, r. split; [exact Nl|]. split; [exact Q'|]. intros [X|(c' & w' & X)]; destruct Pr as [Pr|[Pr|Pr]]; congruence.
    + rewrite Q in Qs. discriminate.
Qed.
End Messages.
