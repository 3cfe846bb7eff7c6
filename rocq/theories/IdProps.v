(** C156: the id of a connection *)
From Verif Require Import Base Value Bytes Chars WsModel WsSpec WsProofs WsProps IdModel IdSpec.
Local Open Scope list_scope.

Lemma to_str_some v t : to_str v = Some t <-> t = v /\ plain v.
Proof.
  unfold to_str, plain. destruct (forallb _ v) eqn:F.
  - rewrite forallb_forall in F. split; [|now intros [-> _]]. intros [= <-]. split; [reflexivity|]. apply Forall_forall. intros b B. specialize (F b B). cbn in F.
    apply Bool.orb_true_iff in F as [F|F]; [apply Bool.andb_true_iff in F as [X Y]; apply N.leb_le in X; apply N.ltb_lt in Y; now left|apply N.eqb_eq in F; now right].
  - split; [discriminate|]. intros [-> P]. exfalso. apply Bool.not_true_iff_false in F. apply F, forallb_forall. intros b B. rewrite Forall_forall in P. specialize (P b B).
    apply Bool.orb_true_iff. destruct P as [[X Y]|X]; [left; apply Bool.andb_true_iff; split; [now apply N.leb_le|now apply N.ltb_lt]|right; now apply N.eqb_eq].
Qed.
Lemma get_header_some name hs v : get_header name hs = Some v <-> first_header name v hs.
Proof.
  unfold first_header. split.
  - induction hs as [|[n w] hs IH]; cbn; [discriminate|]. destruct (text_eqb n name) eqn:E.
    + intros [= ->]. apply text_eqb_eq in E. subst n. exists [], hs. split; [reflexivity|intros ? []].
    + intros G. destruct (IH G) as (a & b & -> & F). exists ((n, w) :: a), b. split; [reflexivity|]. intros x [X|X]; [|now apply (F x)].
      injection X as -> _. rewrite text_eqb_refl in E. discriminate.
  - intros (a & b & -> & F). induction a as [|[n w] a IH]; cbn; [now rewrite text_eqb_refl|].
    destruct (text_eqb n name) eqn:E; [apply text_eqb_eq in E; subst n; exfalso; apply (F w); now left|]. apply IH. intros x X. apply (F x). now right.
Qed.
Lemma get_header_none name hs : get_header name hs = None <-> forall v, ~ In (name, v) hs.
Proof.
  induction hs as [|[n w] hs IH]; cbn; [intuition|]. destruct (text_eqb n name) eqn:E.
  - apply text_eqb_eq in E. subst n. split; [discriminate|]. intros F. exfalso. apply (F w). now left.
  - rewrite IH. split; intros F v; [intros [X|X]; [injection X as -> _; rewrite text_eqb_refl in E; discriminate|now apply (F v)]|intros X; apply (F v); now right].
Qed.

(** The id is what the first such header says if it can be read, the empty text included, and
    otherwise a new one. *)
Theorem C156_request_id : forall hs g,
  (forall v, first_header (chars "x-request-id") v hs -> plain v -> request_id hs g = v) /\
  (forall v, first_header (chars "x-request-id") v hs -> ~ plain v -> request_id hs g = g) /\
  ((forall v, ~ In (chars "x-request-id", v) hs) -> request_id hs g = g).
Proof.
  intros hs g. unfold request_id. change (chars "x-request-id") with request_id_header. split; [|split].
  - intros v F P. apply get_header_some in F. rewrite F. assert (E: to_str v = Some v) by now apply to_str_some. now rewrite E.
  - intros v F P. apply get_header_some in F. rewrite F. destruct (to_str v) eqn:E; [|reflexivity]. apply to_str_some in E as [_ E]. tauto.
  - intros F. apply get_header_none in F. now rewrite F.
Qed.

Section Messages.
Variable parse : text -> option value.
Variable key : text.
Variable routes : text -> bool.
Notation run := (WsModel.run parse key routes).
Notation step := (WsModel.step parse key routes).

(** Anyone who knows the id of a connected client can connect with it, and from then on is
    sent what is meant for that client, whose session goes on unchanged. *)
Theorem C156_takeover_refuted : forall tr s k id g, run init tr s -> s_reg s id = Some k -> plain id ->
  exists s0 s1, connects parse key routes [(chars "x-request-id", id)] g s s0 /\ run s [EOpen (s_next s) id] s1 /\
  (exists tr1, run s0 tr1 s1) /\ s_ses s1 k = s_ses s k /\ s_reg s1 id = Some (s_next s) /\ s_next s <> k /\
  forall m, exists s2, run s1 [ESend (s_next_job s) id m; EDeliver (s_next_job s) (s_next s) m] s2.
Proof.
  intros tr s k id g H R P. pose proof (run_winv _ _ _ _ _ _ H winv_init) as I.
  assert (ID: request_id [(chars "x-request-id", id)] g = id).
  { apply (proj1 (C156_request_id _ g) id); [|exact P]. exists [], []. split; [reflexivity|intros ? []]. }
  assert (L: k < s_next s). { destruct (w_reg s I id k R) as [_ Y]. apply winv_lt; [exact I|]. intros Z. rewrite Z in Y. destruct Y as [Y|Y]; [exact Y|discriminate]. }
  eexists _, _. split; [unfold connects; apply S_open|].
  assert (R1: run s ([] ++ [EOpen (s_next s) id]) (mk_state (S (s_next s)) (upd (s_ses s) (s_next s) (mk_session id Starting [])) (s_reg s) (s_jobs s) (s_next_job s)))
    by (eapply R_step; [apply R_refl|apply S_open]).
  rewrite ID.
  set (sa := mk_state (S (s_next s)) (upd (s_ses s) (s_next s) (mk_session id Starting [])) (s_reg s) (s_jobs s) (s_next_job s)) in *.
  assert (S2: step sa [] (set_ses (set_reg sa (se_id (s_ses sa (s_next s))) (Some (s_next s))) (s_next s) (to_phase (s_ses sa (s_next s)) Pausing)))
    by (apply S_add; unfold sa; cbn; now rewrite upd_eq).
  assert (R2 := R_step _ _ _ _ _ _ _ _ R1 S2). cbn [app] in R2. rewrite ?app_nil_r in R2.
  assert (R3: run sa ([] ++ []) _) by (eapply R_step; [apply R_refl|exact S2]).
  set (sb := set_ses (set_reg sa (se_id (s_ses sa (s_next s))) (Some (s_next s))) (s_next s) (to_phase (s_ses sa (s_next s)) Pausing)) in *.
  assert (RG: s_reg sb id = Some (s_next s)). { unfold sb, sa. cbn. rewrite upd_eq. cbn. apply put_eq. }
  split; [exact R2|]. split; [eexists; exact R3|]. split.
  { unfold sb, sa. cbn. rewrite upd_neq by lia. rewrite upd_neq by lia. reflexivity. }
  split; [exact RG|]. split; [lia|].
  intros m.
  assert (T1: run sb ([] ++ [ESend (s_next_job sb) id m]) (new_job sb (Looking id m))) by (eapply R_step; [apply R_refl|apply S_send]).
  eassert (T2: step (new_job sb (Looking id m)) [] _).
  { eapply (S_found _ _ _ _ (s_next_job sb) id m (s_next s)); [cbn; apply upd_eq|exact RG]. }
  assert (T3 := R_step _ _ _ _ _ _ _ _ T1 T2).
  eassert (T4: step _ [EDeliver (s_next_job sb) (s_next s) m] _).
  { eapply (S_deliver _ _ _ _ (s_next_job sb) (s_next s) m []).
    - instantiate (1 := set_ses (set_job (new_job sb (Looking id m)) (s_next_job sb) (Queued (s_next s) m)) (s_next s) (enqueue (WSend (s_next_job sb)) (s_ses (new_job sb (Looking id m)) (s_next s)))).
      cbn. apply upd_eq.
    - cbn. rewrite upd_eq. cbn. unfold sb. cbn. rewrite upd_eq. cbn. unfold sa. cbn. rewrite upd_eq. reflexivity. }
  assert (T5 := R_step _ _ _ _ _ _ _ _ T3 T4). cbn [app] in T5. eexists. exact T5.
Qed.

(** When the intruder leaves, the client is connected but unlisted. *)
Theorem C156_cut_off_refuted : forall tr s k id, run init tr s -> s_reg s id = Some k -> alive (se_phase (s_ses s k)) ->
  exists s1, run s [EOpen (s_next s) id; EGone (s_next s); EEnd (s_next s)] s1 /\ s_ses s1 k = s_ses s k /\ s_reg s1 id = None /\ unlisted s1 k.
Proof.
  intros tr s k id H R A. pose proof (run_winv _ _ _ _ _ _ H winv_init) as I.
  assert (L: k < s_next s) by (apply winv_lt; [exact I|]; intros Z; rewrite Z in A; destruct A).
  assert (R1: run s ([] ++ [EOpen (s_next s) id]) (mk_state (S (s_next s)) (upd (s_ses s) (s_next s) (mk_session id Starting [])) (s_reg s) (s_jobs s) (s_next_job s)))
    by (eapply R_step; [apply R_refl|apply S_open]).
  set (sa := mk_state (S (s_next s)) (upd (s_ses s) (s_next s) (mk_session id Starting [])) (s_reg s) (s_jobs s) (s_next_job s)) in *.
  assert (S2: step sa [] (set_ses (set_reg sa (se_id (s_ses sa (s_next s))) (Some (s_next s))) (s_next s) (to_phase (s_ses sa (s_next s)) Pausing)))
    by (apply S_add; unfold sa; cbn; now rewrite upd_eq).
  assert (R2 := R_step _ _ _ _ _ _ _ _ R1 S2). set (sb := set_ses _ _ _) in R2.
  assert (Eb: s_ses sb (s_next s) = mk_session id Pausing []) by (unfold sb, sa; cbn; rewrite !upd_eq; reflexivity).
  assert (S3: step sb [] (set_ses sb (s_next s) (enqueue WSession (to_phase (s_ses sb (s_next s)) Asking)))) by (refine (S_ask _ _ _ sb (s_next s) _); now rewrite Eb).
  assert (R3 := R_step _ _ _ _ _ _ _ _ R2 S3). set (sc := set_ses sb _ _) in R3.
  assert (Ec: s_ses sc (s_next s) = mk_session id Asking [WSession]) by (unfold sc; cbn [s_ses set_ses]; rewrite upd_eq, Eb; reflexivity).
  assert (S4: step sc [] (set_ses sc (s_next s) (to_phase (s_ses sc (s_next s)) Reading))) by (refine (S_lock _ _ _ sc (s_next s) [] _ _); now rewrite Ec).
  assert (R4 := R_step _ _ _ _ _ _ _ _ R3 S4). set (sd := set_ses sc _ _) in R4.
  assert (Ed: s_ses sd (s_next s) = mk_session id Reading [WSession]) by (unfold sd; cbn [s_ses set_ses]; rewrite upd_eq, Ec; reflexivity).
  assert (S5: step sd [EGone (s_next s); EEnd (s_next s)] (set_ses (set_reg sd (se_id (s_ses sd (s_next s))) None) (s_next s) (release (to_phase (s_ses sd (s_next s)) Over))))
    by (refine (S_gone _ _ _ sd (s_next s) _); now rewrite Ed).
  assert (R5 := R_step _ _ _ _ _ _ _ _ R4 S5). cbn [app] in R5. eexists. split; [exact R5|].
  assert (V: s_ses (set_ses (set_reg sd (se_id (s_ses sd (s_next s))) None) (s_next s) (release (to_phase (s_ses sd (s_next s)) Over))) k = s_ses s k).
  { cbn. rewrite upd_neq by lia. unfold sd. cbn. rewrite upd_neq by lia. unfold sc. cbn. rewrite upd_neq by lia. unfold sb. cbn. rewrite upd_neq by lia. unfold sa. cbn. now rewrite upd_neq by lia. }
  split; [exact V|]. split.
  { cbn [s_reg set_ses set_reg]. rewrite Ed. apply put_eq. }
  split; [|split].
  - cbn. lia.
  - rewrite V. intros Z. rewrite Z in A. destruct A.
  - intros id'. cbn [s_reg set_ses set_reg]. rewrite Ed. cbn [se_id]. unfold put at 1. destruct (text_eqb id' id) eqn:E; [discriminate|].
    unfold sd, sc, sb. cbn. unfold sa. cbn. rewrite upd_eq. cbn. unfold put. rewrite E. intros X.
    destruct (w_reg s I id' k X) as [E1 _], (w_reg s I id k R) as [E2 _]. rewrite E1 in E2. subst id'. rewrite E2, text_eqb_refl in E. discriminate.
Qed.

Lemma unlisted_step s es s' k : winv s -> step s es s' -> unlisted s k -> unlisted s' k.
Proof.
  intros I H (L & P & U). destruct (phase_step _ _ _ _ _ _ k H L) as (L' & _ & _). split; [exact L'|].
  destruct H as [s id|s i Q|s i Q|s i q Q X|s i f c Q F|s i f Q F|s i f Q F|s i f Q F|s i Q|s i c w Q X|s i c Q|s i c id m Q|s id m|s j id m i J R|s j id m J R|s j i m q J Q];
    cbn [s_next s_ses s_reg set_ses set_reg set_job new_job to_phase release enqueue] in *.
  all: split; [first [rewrite upd_neq by lia; exact P | exact P | (destruct (Nat.eq_dec k i) as [->|N]; [rewrite upd_eq; cbn; try discriminate; try exact P|rewrite upd_neq by exact N; exact P])]|].
  all: intros id0; try exact (U id0).
  all: unfold put; destruct (text_eqb id0 _); [|exact (U id0)]; try discriminate.
  intros [= ->]. now rewrite Q in P.
Qed.

(** An unlisted client stays so: of what is sent to it later it gets nothing, whatever happens. *)
Theorem C156_never_listed_again_refuted : forall tr s k tr' s', run init tr s -> unlisted s k -> run s tr' s' ->
  unlisted s' k /\ forall j m, In (EDeliver j k m) tr' -> s_jobs s j = Queued k m.
Proof.
  intros tr s k tr' s' H U R. pose proof (run_winv _ _ _ _ _ _ H winv_init) as I. clear H tr.
  assert (G: unlisted s' k /\ winv s' /\ (forall j m, s_jobs s' j = Queued k m -> s_jobs s j = Queued k m) /\ forall j m, In (EDeliver j k m) tr' -> s_jobs s j = Queued k m).
  { revert U I. induction R as [s|s tr s1 es s2 R IH S]; intros U I.
    { split; [exact U|]. split; [exact I|]. split; [auto|intros j m []]. }
    destruct (IH U I) as (U1 & I1 & J1 & D1). clear IH.
    split; [eapply unlisted_step; eauto|]. split; [eapply winv_step; eauto|]. split.
    - intros j m Q. destruct (job_step _ _ _ _ _ _ j S) as [(X & Y)|[(id & m0 & N & X & -> & _)|[(id & m0 & k0 & J0 & RG & X & ->)|[(X & -> & id & m0 & J0)|(k0 & m0 & J0 & X & ->)]]]]; rewrite X in Q; try discriminate Q; auto.
      injection Q as -> ->. exfalso. destruct U1 as (_ & _ & U1). exact (U1 _ RG).
    - intros j m Hin. apply in_app_or in Hin as [Hin|Hin]; [auto|]. apply J1. exact (proj1 (deliver_job _ _ _ _ _ _ _ _ _ S Hin)). }
  destruct G as (A & _ & _ & D). auto.
Qed.

(** With ids that were never used before, as generated ones are meant to be, every session
    has its own, *)
Theorem C156_new_ids_distinct : forall tr s, run init tr s -> new_ids tr -> distinct_ids s.
Proof.
  intros tr s H F k k' L L' E. pose proof (all_opened _ _ _ _ _ k H L) as A. pose proof (all_opened _ _ _ _ _ k' H L') as B. rewrite <- E in B.
  destruct (Nat.eq_dec k k') as [|N]; [assumption|exfalso].
  apply in_split in A as (a & d & ->). apply in_app_or in B as [B|[B|B]].
  - exact (F a k _ d eq_refl k' B).
  - congruence.
  - apply in_split in B as (b & e & ->). refine (F (a ++ EOpen k (se_id (s_ses s k)) :: b) k' _ e _ k _).
    + now rewrite <- app_assoc.
    + apply in_or_app. right. now left.
Qed.
(** and gets what is sent to its id and nothing else. *)
Theorem C156_own_messages : forall a j k m d s, run init (a ++ EDeliver j k m :: d) s -> new_ids (a ++ EDeliver j k m :: d) ->
  exists id, In (ESend j id m) a /\ In (EOpen k id) a /\ forall k', In (EOpen k' id) (a ++ EDeliver j k m :: d) -> k' = k.
Proof.
  intros a j k m d s H F. destruct (C71_addressee _ _ _ _ _ _ _ _ _ H) as [(id & S & O) _]. exists id. split; [exact S|]. split; [exact O|].
  intros k' O'. pose proof (C156_new_ids_distinct _ _ H F) as D.
  destruct (opened _ _ _ _ _ _ _ H O') as [L1 E1]. assert (O2: In (EOpen k id) (a ++ EDeliver j k m :: d)) by (apply in_or_app; now left).
  destruct (opened _ _ _ _ _ _ _ H O2) as [L2 E2]. apply D; congruence.
Qed.
End Messages.

Example C156_nonvacuous : (exists tr s, run0 init tr s /\ s_reg s (chars "victim") = Some 0 /\ alive (se_phase (s_ses s 0)) /\ plain (chars "victim") /\ new_ids tr) /\
  request_id [(chars "accept", [42%N]); (chars "x-request-id", [])] (chars "n") = [] /\
  request_id [(chars "x-request-id", [200%N]); (chars "x-request-id", chars "a")] (chars "n") = chars "n" /\
  request_id [(chars "x-request-id", chars "a"); (chars "x-request-id", chars "b")] (chars "n") = chars "a".
Proof.
  split; [|repeat split].
  assert (X := R_refl p0 (chars "event") r0 init). go X (S_open _ _ _ _ (chars "victim")). go X (S_add _ _ _ _ 0).
  eexists _, _. split; [exact X|]. split; [reflexivity|]. split; [exact Logic.I|]. split; [unfold plain, chars; cbn; repeat (constructor; [left; lia|]); constructor|].
  intros a k id d E k' Hin. destruct a as [|x a]; [destruct Hin|]. cbn in E. injection E as _ E. destruct a; discriminate E.
Qed.

Print Assumptions C156_request_id.
Print Assumptions C156_takeover_refuted.
Print Assumptions C156_cut_off_refuted.
Print Assumptions C156_never_listed_again_refuted.
Print Assumptions C156_new_ids_distinct.
Print Assumptions C156_own_messages.
