From Verif Require Import Base LocalApiModel LocalApiSpec.
Local Open Scope list_scope.

Section P.
  Context {B R : Type}.
  Notation entry := (api_op B R * api_answer B)%type.
  Implicit Types (s : api_state B R) (h : list entry).

  Lemma api_run_snoc os : forall s o s1 h1 s2 a,
    api_run s os = (s1, h1) -> api_step s1 o = (s2, a) ->
    api_run s (os ++ [o]) = (s2, h1 ++ [(o, a)]).
  Proof.
    induction os as [|o' os IH]; intros s o s1 h1 s2 a H1 H2; cbn in H1 |- *.
    - inversion H1; subst. rewrite H2. reflexivity.
    - destruct (api_step s o') as [s3 a3]. destruct (api_run s3 os) as [s4 h4] eqn:E.
      inversion H1; subst. rewrite (IH _ _ _ _ _ _ E H2). reflexivity.
  Qed.

  Lemma enqueued_app h1 h2 : enqueued (h1 ++ h2) = enqueued h1 ++ enqueued h2.
  Proof. induction h1 as [|[[] a] h1 IH]; cbn; rewrite ?IH; reflexivity. Qed.
  Lemma handed_out_app h1 h2 : handed_out (h1 ++ h2) = handed_out h1 ++ handed_out h2.
  Proof.
    induction h1 as [|[o a] h1 IH]; cbn; [reflexivity|].
    destruct o, a as [|[te|]|]; cbn; rewrite ?IH; reflexivity.
  Qed.
  Lemma numbered_app {A} (l1 l2 : list A) : forall k,
    numbered k (l1 ++ l2) = numbered k l1 ++ numbered (k + length l1) l2.
  Proof.
    induction l1 as [|x l1 IH]; intros k; cbn; [now rewrite Nat.add_0_r|].
    rewrite IH. now rewrite Nat.add_succ_r.
  Qed.
  Lemma numbered_fst {A} (l : list A) : forall k, map fst (numbered k l) = seq k (length l).
  Proof. induction l; intros k; cbn; [reflexivity|now rewrite IHl]. Qed.
  Lemma numbered_NoDup {A} (l : list A) k : NoDup (map fst (numbered k l)).
  Proof. rewrite numbered_fst. apply seq_NoDup. Qed.

  Definition view (o : option (option (ticket * event B))) : option (ticket * event B) :=
    match o with Some (Some te) => Some te | _ => None end.

  Record inv s h : Prop := {
    inv_order : numbered 0 (enqueued h) = handed_out h ++ queue s;
    inv_next : next_ticket s = length (enqueued h);
    inv_nodup : NoDup (keys (processing s));
    inv_proc : forall id, lookup id (processing s) = view (last_value (touches id) None h);
    inv_gone : forall tx, In tx (gone s) <-> gave_up h tx;
    inv_handed : forall id tx e, lookup id (processing s) = Some (tx, e) ->
        ev_id e = id /\ In (tx, e) (handed_out h) /\ ~ In tx (map fst (delivered s));
    inv_inj : forall id1 id2 tx e1 e2, lookup id1 (processing s) = Some (tx, e1) ->
        lookup id2 (processing s) = Some (tx, e2) -> id1 = id2;
    inv_deliv_nodup : NoDup (map fst (delivered s));
    inv_deliv : forall tx e r, In (tx, (e, r)) (delivered s) ->
        In (tx, e) (handed_out h) /\ In (PostResult (ev_id e) r, AResult ResultProcessed) h
  }.

  Lemma inv_init : inv api_init [].
  Proof.
    constructor; cbn; try reflexivity; try constructor; try discriminate; try tauto.
    intros [a []].
  Qed.

  Lemma last_touch id h x : last_value (touches id) None (h ++ [x]) =
    match touches id x with Some v => Some v | None => last_value (touches id) None h end.
  Proof. rewrite last_value_app. reflexivity. Qed.

  Lemma gave_up_snoc h x tx : gave_up (h ++ [x]) tx <-> gave_up h tx \/ exists a, x = (WaiterGone tx, a).
  Proof.
    unfold gave_up. split.
    - intros [a H]. apply in_app_or in H. destruct H as [H|[H|[]]]; eauto.
    - intros [[a H]|[a ->]]; exists a; apply in_or_app; [left; exact H|right; now left].
  Qed.

  Lemma inv_step s h o s' a : inv s h -> api_step s o = (s', a) -> inv s' (h ++ [(o, a)]).
  Proof.
    intros I H. destruct o as [e| |id r|tx0]; cbn in H.
    - inversion H; subst; clear H. destruct I. constructor; cbn.
      + rewrite enqueued_app, handed_out_app, numbered_app. cbn. rewrite app_nil_r, inv_order0, inv_next0.
        now rewrite app_assoc.
      + rewrite enqueued_app, app_length. cbn. lia.
      + assumption.
      + intros i. rewrite last_touch. cbn. apply inv_proc0.
      + intros tx. rewrite gave_up_snoc, inv_gone0. split; [tauto|]. intros [?|[? ?]]; [assumption|discriminate].
      + intros i tx e1 Hl. rewrite handed_out_app. cbn. rewrite app_nil_r. eauto.
      + assumption.
      + assumption.
      + intros tx e1 r1 Hin. rewrite handed_out_app. cbn. rewrite app_nil_r.
        destruct (inv_deliv0 _ _ _ Hin). split; [assumption|]. apply in_or_app; auto.
    - unfold next_event in H. destruct (queue s) as [|[tx e] q] eqn:Eq.
      + inversion H; subst; clear H. destruct I. constructor.
        * rewrite enqueued_app, handed_out_app. cbn. now rewrite !app_nil_r.
        * rewrite enqueued_app. cbn. now rewrite app_nil_r.
        * assumption.
        * intros i. rewrite last_touch. cbn. apply inv_proc0.
        * intros tx. rewrite gave_up_snoc, inv_gone0. split; [tauto|]. intros [?|[? ?]]; [assumption|discriminate].
        * intros i tx e1 Hl. rewrite handed_out_app. cbn. rewrite app_nil_r. eauto.
        * assumption.
        * assumption.
        * intros tx e1 r1 Hin. rewrite handed_out_app. cbn. rewrite app_nil_r.
          destruct (inv_deliv0 _ _ _ Hin). split; [assumption|]. apply in_or_app; auto.
      + inversion H; subst; clear H.
        assert (Hfresh : ~ In tx (map fst (handed_out h))).
        { pose proof (numbered_NoDup (enqueued h) 0) as Hn. rewrite (inv_order _ _ I), Eq, map_app in Hn. cbn in Hn.
          apply NoDup_remove_2 in Hn. intros Hx. apply Hn. apply in_or_app. auto. }
        destruct I. rewrite Eq in inv_order0. constructor; cbn.
        * rewrite enqueued_app, handed_out_app. cbn. rewrite app_nil_r, inv_order0.
          now rewrite <- app_assoc.
        * rewrite enqueued_app. cbn. now rewrite app_nil_r.
        * now apply NoDup_insert.
        * intros i. rewrite last_touch, lookup_insert. cbn. destruct (String.eqb i (ev_id e)); [reflexivity|apply inv_proc0].
        * intros t. rewrite gave_up_snoc, inv_gone0. split; [tauto|]. intros [?|[? ?]]; [assumption|discriminate].
        * intros i t e1. rewrite lookup_insert, handed_out_app. cbn. destruct (String.eqb_spec i (ev_id e)) as [->|Hne].
          { intros Hx; inversion Hx; subst. split; [reflexivity|]. split; [apply in_or_app; right; now left|].
            intros Hd. apply Hfresh. apply in_map_iff in Hd. destruct Hd as ([t1 [e2 r2]] & Ht & Hd).
            cbn in Ht; subst. apply in_map_iff. exists (t, e2). split; [reflexivity|]. now apply (inv_deliv0 _ _ _ Hd). }
          { intros Hl. destruct (inv_handed0 _ _ _ Hl) as (? & ? & ?). repeat split; auto. apply in_or_app; auto. }
        * intros i1 i2 t e1 e2. rewrite !lookup_insert.
          destruct (String.eqb_spec i1 (ev_id e)) as [->|H1]; destruct (String.eqb_spec i2 (ev_id e)) as [->|H2]; auto.
          { intros Hx Hl; inversion Hx; subst. exfalso. apply Hfresh. apply in_map_iff.
            exists (t, e2). split; [reflexivity|]. now apply (inv_handed0 _ _ _ Hl). }
          { intros Hl Hx; inversion Hx; subst. exfalso. apply Hfresh. apply in_map_iff.
            exists (t, e1). split; [reflexivity|]. now apply (inv_handed0 _ _ _ Hl). }
          { eauto. }
        * assumption.
        * intros t e1 r1 Hin. rewrite handed_out_app.
          destruct (inv_deliv0 _ _ _ Hin). split; apply in_or_app; auto.
    - unfold event_result in H. destruct (lookup id (processing s)) as [[tx e]|] eqn:El.
      + destruct (inv_handed _ _ I _ _ _ El) as (Hid & Hho & Hnd). subst id.
        assert (Hcommon : forall aa, numbered 0 (enqueued (h ++ [(PostResult (ev_id e) r, aa)])) =
                  handed_out (h ++ [(PostResult (ev_id e) r, aa)]) ++ queue s
                  /\ next_ticket s = length (enqueued (h ++ [(PostResult (ev_id e) r, aa)]))
                  /\ (forall i, lookup i (remove_key (ev_id e) (processing s)) =
                        view (last_value (touches i) None (h ++ [(PostResult (ev_id e) r, aa)])))
                  /\ (forall t, In t (gone s) <-> gave_up (h ++ [(PostResult (ev_id e) r, aa)]) t)
                  /\ handed_out (h ++ [(PostResult (ev_id e) r, aa)]) = handed_out h).
        { intros aa. destruct I. rewrite enqueued_app, handed_out_app. cbn. rewrite !app_nil_r.
          repeat split; auto.
          - intros i. rewrite last_touch, lookup_remove. cbn. destruct (String.eqb i (ev_id e)); [reflexivity|apply inv_proc0].
          - rewrite gave_up_snoc, inv_gone0. tauto.
          - rewrite gave_up_snoc, inv_gone0. intros [?|[? ?]]; [assumption|discriminate]. }
        destruct (existsb (Nat.eqb tx) (gone s)) eqn:Eg; inversion H; subst; clear H.
        * destruct (Hcommon (AResult UnexpectedError)) as (C1 & C2 & C3 & C4 & C5). destruct I.
          constructor; cbn [queue next_ticket processing delivered gone]; auto.
          { now apply NoDup_remove_key. }
          { intros i t e1. rewrite lookup_remove, C5. destruct (String.eqb i (ev_id e)); [discriminate|eauto]. }
          { intros i1 i2 t e1 e2. rewrite !lookup_remove.
            destruct (String.eqb i1 (ev_id e)); [discriminate|]. destruct (String.eqb i2 (ev_id e)); [discriminate|eauto]. }
          { intros t e1 r1 Hin. rewrite C5. destruct (inv_deliv0 _ _ _ Hin). split; [assumption|].
            apply in_or_app; auto. }
        * destruct (Hcommon (AResult ResultProcessed)) as (C1 & C2 & C3 & C4 & C5). destruct I.
          constructor; cbn [queue next_ticket processing delivered gone]; auto.
          { now apply NoDup_remove_key. }
          { intros i t e1. rewrite lookup_remove, C5. destruct (String.eqb_spec i (ev_id e)) as [|Hne]; [discriminate|].
            intros Hl. destruct (inv_handed0 _ _ _ Hl) as (H1 & H2 & H3). repeat split; auto.
            rewrite map_app, in_app_iff. cbn. intros [Hd|[<-|[]]]; [auto|].
            apply Hne. eapply inv_inj0; eauto. }
          { intros i1 i2 t e1 e2. rewrite !lookup_remove.
            destruct (String.eqb i1 (ev_id e)); [discriminate|]. destruct (String.eqb i2 (ev_id e)); [discriminate|eauto]. }
          { rewrite map_app. cbn. apply NoDup_rev in inv_deliv_nodup0.
            rewrite <- (rev_involutive (map fst (delivered s) ++ [tx])). apply NoDup_rev.
            rewrite rev_app_distr. cbn. constructor; [|assumption]. rewrite <- in_rev. assumption. }
          { intros t e1 r1 Hin. rewrite C5. apply in_app_or in Hin. destruct Hin as [Hin|[Hin|[]]].
            - destruct (inv_deliv0 _ _ _ Hin). split; [assumption|]. apply in_or_app; auto.
            - inversion Hin; subst. split; [assumption|]. apply in_or_app; right; now left. }
      + inversion H; subst; clear H. destruct I. constructor.
        * rewrite enqueued_app, handed_out_app. cbn. now rewrite !app_nil_r.
        * rewrite enqueued_app. cbn. now rewrite app_nil_r.
        * assumption.
        * intros i. rewrite last_touch. cbn. destruct (String.eqb_spec i id) as [->|]; [exact El|apply inv_proc0].
        * intros tx. rewrite gave_up_snoc, inv_gone0. split; [tauto|]. intros [?|[? ?]]; [assumption|discriminate].
        * intros i tx e1 Hl. rewrite handed_out_app. cbn. rewrite app_nil_r. eauto.
        * assumption.
        * assumption.
        * intros tx e1 r1 Hin. rewrite handed_out_app. cbn. rewrite app_nil_r.
          destruct (inv_deliv0 _ _ _ Hin). split; [assumption|]. apply in_or_app; auto.
    - inversion H; subst; clear H. destruct I. constructor; cbn.
      + rewrite enqueued_app, handed_out_app. cbn. now rewrite !app_nil_r.
      + rewrite enqueued_app. cbn. now rewrite app_nil_r.
      + assumption.
      + intros i. rewrite last_touch. cbn. apply inv_proc0.
      + intros tx. rewrite gave_up_snoc, inv_gone0. split.
        * intros [->|?]; [right; eauto|auto].
        * intros [?|[? Hx]]; [auto|inversion Hx; auto].
      + intros i tx e1 Hl. rewrite handed_out_app. cbn. rewrite app_nil_r. eauto.
      + assumption.
      + assumption.
      + intros tx e1 r1 Hin. rewrite handed_out_app. cbn. rewrite app_nil_r.
        destruct (inv_deliv0 _ _ _ Hin). split; [assumption|]. apply in_or_app; auto.
  Qed.

  Lemma api_run_app os1 : forall s os2,
    api_run s (os1 ++ os2) =
    let (s1, h1) := api_run s os1 in let (s2, h2) := api_run s1 os2 in (s2, h1 ++ h2).
  Proof.
    induction os1 as [|o os1 IH]; intros s os2; cbn.
    - destruct (api_run s os2); reflexivity.
    - destruct (api_step s o) as [s1 a]. rewrite IH. destruct (api_run s1 os1) as [s2 h2].
      destruct (api_run s2 os2) as [s3 h3]. reflexivity.
  Qed.

  Lemma run_inv os : forall s h, api_run api_init os = (s, h) -> inv s h.
  Proof.
    induction os as [|o os IH] using rev_ind; intros s h H.
    - inversion H; subst. apply inv_init.
    - destruct (api_run api_init os) as [s1 h1] eqn:E1. destruct (api_step s1 o) as [s2 a] eqn:E2.
      rewrite (api_run_snoc _ _ _ _ _ _ _ E1 E2) in H. inversion H; subst.
      eapply inv_step; eauto.
  Qed.

  Lemma fifo os s h : api_run api_init os = (s, h) ->
    handed_out h = firstn (length (handed_out h)) (numbered 0 (enqueued h)).
  Proof.
    intros H. apply run_inv in H. rewrite (inv_order _ _ H), firstn_app, firstn_all, Nat.sub_diag.
    cbn. now rewrite app_nil_r.
  Qed.

  Lemma poll_answer os s h : api_run api_init os = (s, h) ->
    snd (api_step s Poll) = APoll (nth_error (numbered 0 (enqueued h)) (length (handed_out h))).
  Proof.
    intros H. apply run_inv in H. rewrite (inv_order _ _ H). cbn.
    rewrite nth_error_app2 by lia. rewrite Nat.sub_diag. unfold next_event.
    destruct (queue s) as [|[tx e] q]; reflexivity.
  Qed.

  Lemma poll_empty os s h : api_run api_init os = (s, h) ->
    (snd (api_step s Poll) = APoll None <-> length (handed_out h) = length (enqueued h)).
  Proof.
    intros H. pose proof (run_inv _ _ _ H) as I. pose proof (inv_order _ _ I) as Ho.
    apply (f_equal (@length _)) in Ho. rewrite app_length in Ho.
    assert (length (numbered 0 (enqueued h)) = length (enqueued h)) as Hl.
    { rewrite <- (map_length fst), numbered_fst, seq_length. reflexivity. }
    cbn. unfold next_event. destruct (queue s) as [|[tx e] q]; cbn in *; split; intros; try reflexivity; try lia; discriminate.
  Qed.

  Lemma handed_once os s h : api_run api_init os = (s, h) -> NoDup (map fst (handed_out h)).
  Proof.
    intros H. pose proof (run_inv _ _ _ H) as I. pose proof (numbered_NoDup (enqueued h) 0) as Hn.
    rewrite (inv_order _ _ I), map_app in Hn. now apply NoDup_app_l in Hn.
  Qed.

  Lemma proc_in_process os s h : api_run api_init os = (s, h) -> forall id te,
    lookup id (processing s) = Some te <-> in_process h id te.
  Proof.
    intros H id te. apply run_inv in H. rewrite (inv_proc _ _ H). unfold in_process.
    rewrite <- last_value_assigned. destruct (last_value (touches id) None h) as [[x|]|]; cbn;
      split; intros Hx; inversion Hx; subst; reflexivity.
  Qed.

  Lemma post_delivered os s h id r tx e : api_run api_init os = (s, h) ->
    in_process h id (tx, e) -> ~ gave_up h tx ->
    exists s', api_step s (PostResult id r) = (s', AResult ResultProcessed)
      /\ delivered s' = delivered s ++ [(tx, (e, r))] /\ ev_id e = id.
  Proof.
    intros H Hp Hg. pose proof (run_inv _ _ _ H) as I. apply (proc_in_process _ _ _ H) in Hp.
    cbn. unfold event_result. rewrite Hp.
    destruct (existsb (Nat.eqb tx) (gone s)) eqn:Eg.
    - exfalso. apply Hg. apply (inv_gone _ _ I). apply existsb_exists in Eg. destruct Eg as (x & Hx & Ex).
      apply Nat.eqb_eq in Ex. now subst.
    - eexists. split; [reflexivity|]. split; [reflexivity|]. now apply (inv_handed _ _ I _ _ _ Hp).
  Qed.

  Lemma post_gone os s h id r tx e : api_run api_init os = (s, h) ->
    in_process h id (tx, e) -> gave_up h tx ->
    exists s', api_step s (PostResult id r) = (s', AResult UnexpectedError) /\ delivered s' = delivered s.
  Proof.
    intros H Hp Hg. pose proof (run_inv _ _ _ H) as I. apply (proc_in_process _ _ _ H) in Hp.
    cbn. unfold event_result. rewrite Hp.
    destruct (existsb (Nat.eqb tx) (gone s)) eqn:Eg.
    - eexists. split; reflexivity.
    - exfalso. apply (inv_gone _ _ I) in Hg.
      assert (existsb (Nat.eqb tx) (gone s) = true); [|congruence].
      apply existsb_exists. exists tx. split; [assumption|apply Nat.eqb_refl].
  Qed.

  Lemma post_unknown os s h id r : api_run api_init os = (s, h) ->
    (forall te, ~ in_process h id te) ->
    api_step s (PostResult id r) = (s, AResult EventNotFound).
  Proof.
    intros H Hp. cbn. unfold event_result. destruct (lookup id (processing s)) as [te|] eqn:E; [|reflexivity].
    exfalso. apply (Hp te). now apply (proc_in_process _ _ _ H).
  Qed.

  Lemma only_results_deliver s o : (forall id r, o <> PostResult id r) ->
    delivered (fst (api_step s o)) = delivered s.
  Proof.
    intros H. destruct o; cbn; try reflexivity.
    - unfold next_event. destruct (queue s) as [|[? ?] ?]; reflexivity.
    - exfalso. eapply H; reflexivity.
  Qed.

  Lemma delivered_once os s h : api_run api_init os = (s, h) ->
    NoDup (map fst (delivered s))
    /\ forall tx e r, In (tx, (e, r)) (delivered s) ->
         nth_error (enqueued h) tx = Some e
         /\ In (tx, e) (handed_out h)
         /\ In (PostResult (ev_id e) r, AResult ResultProcessed) h.
  Proof.
    intros H. pose proof (run_inv _ _ _ H) as I. split; [apply I|].
    intros tx e r Hin. destruct (inv_deliv _ _ I _ _ _ Hin) as [H1 H2]. split; [|auto].
    assert (Hn : In (tx, e) (numbered 0 (enqueued h))).
    { rewrite (inv_order _ _ I). apply in_or_app; auto. }
    assert (G : forall (l : list (event B)) k, In (tx, e) (numbered k l) -> k <= tx /\ nth_error l (tx - k) = Some e).
    { induction l as [|x l IH]; intros k Hk; cbn in Hk; [destruct Hk|]. destruct Hk as [Hk|Hk].
      - inversion Hk; subst. split; [lia|]. rewrite Nat.sub_diag. reflexivity.
      - apply IH in Hk. destruct Hk as [Hk1 Hk2]. split; [lia|].
        replace (tx - k) with (S (tx - S k)) by lia. exact Hk2. }
    apply G in Hn. rewrite Nat.sub_0_r in Hn. tauto.
  Qed.

  (** With distinct ids, an event handed out stays known until its result arrives. *)
  Lemma handed_stays os s h tx e : api_run api_init os = (s, h) ->
    NoDup (map ev_id (enqueued h)) ->
    In (tx, e) (handed_out h) -> (forall r a, ~ In (PostResult (ev_id e) r, a) h) ->
    in_process h (ev_id e) (tx, e).
  Proof.
    intros H Hnd Hin Hno. pose proof (run_inv _ _ _ H) as I. unfold in_process. apply last_value_assigned.
    assert (Hsub : NoDup (map (fun te => ev_id (snd te)) (handed_out h))).
    { assert (Hm : map (fun te : ticket * event B => ev_id (snd te)) (numbered 0 (enqueued h)) = map ev_id (enqueued h)).
      { generalize (enqueued h) as l, 0 as k. induction l; intros k; cbn; [reflexivity|now rewrite IHl]. }
      rewrite <- Hm, (inv_order _ _ I), map_app in Hnd. now apply NoDup_app_l in Hnd. }
    clear I H Hnd. induction h as [|x h IH] using rev_ind; [destruct Hin|].
    rewrite last_touch. rewrite handed_out_app in Hin, Hsub.
    assert (Hno' : forall r a, ~ In (PostResult (ev_id e) r, a) h).
    { intros r a Hx. apply (Hno r a). apply in_or_app; auto. }
    destruct x as [o a]. destruct o as [e1| |id r|tx0].
    - cbn in *. rewrite app_nil_r in *. auto.
    - destruct a as [|[[t1 e1]|]|]; cbn in *; rewrite ?app_nil_r in *; auto.
      destruct (String.eqb_spec (ev_id e) (ev_id e1)) as [Heq|Hne].
      + apply in_app_or in Hin. destruct Hin as [Hin|[Hin|[]]]; [|now rewrite Hin].
        exfalso. rewrite map_app in Hsub. cbn in Hsub. apply NoDup_remove_2 in Hsub. apply Hsub.
        rewrite app_nil_r. apply in_map_iff. exists (tx, e). auto.
      + apply in_app_or in Hin. destruct Hin as [Hin|[Hin|[]]]; [|inversion Hin; congruence].
        apply IH; auto. rewrite map_app in Hsub. cbn in Hsub. apply NoDup_remove_1 in Hsub. now rewrite app_nil_r in Hsub.
    - cbn in *. rewrite app_nil_r in *. destruct (String.eqb_spec (ev_id e) id) as [<-|]; [|auto].
      exfalso. apply (Hno r a). apply in_or_app; right; now left.
    - cbn in *. rewrite app_nil_r in *. auto.
  Qed.
End P.

(** ** WebSocket batches *)
Lemma ctx_of m : (wm_inform_clients_on_loss m = None /\ create_send_context (wm_inform_clients_on_loss m) = None
     \/ exists cs, wm_inform_clients_on_loss m = Some cs
        /\ create_send_context (wm_inform_clients_on_loss m) = Some {| sc_inform_clients := cs; sc_wait_for_ack := false |}).
Proof. destruct (wm_inform_clients_on_loss m); cbn; eauto. Qed.

Lemma ctx_unique m ctx : (wm_inform_clients_on_loss m = None /\ ctx = None
     \/ exists cs, wm_inform_clients_on_loss m = Some cs
        /\ ctx = Some {| sc_inform_clients := cs; sc_wait_for_ack := false |}) ->
  ctx = create_send_context (wm_inform_clients_on_loss m).
Proof. intros [[H ->]|(cs & H & ->)]; rewrite H; reflexivity. Qed.

Lemma ws_ok W (send : sender W) ms : forall w w',
  ws_messages (Some send) w ms = (w', None) <-> AllSent send w ms w'.
Proof.
  cbn. induction ms as [|m ms IH]; intros w w'; cbn [ws_send_loop].
  - split; [intros H; inversion H; constructor|intros H; inversion H; reflexivity].
  - destruct (send w _ _ _ _) as [w1 ok] eqn:E. split.
    + destruct ok; [|discriminate]. intros H. apply IH in H. econstructor; [apply ctx_of|exact E|exact H].
    + intros H. inversion H as [|? ? ? ? ? ? Hc Hs Ha]; subst. apply ctx_unique in Hc. subst ctx. rewrite E in Hs. inversion Hs; subst.
      now apply IH.
Qed.

Lemma ws_fail W (send : sender W) ms : forall w w' e,
  ws_messages (Some send) w ms = (w', Some e) <->
  e = WsUnexpectedError /\ exists pre m post w1, ms = pre ++ m :: post /\ AllSent send w pre w1 /\ SendFails send w1 m w'.
Proof.
  cbn. induction ms as [|m ms IH]; intros w w' e; cbn [ws_send_loop].
  - split; [discriminate|]. intros (_ & pre & m & post & w1 & H & _). destruct pre; discriminate.
  - destruct (send w _ _ _ _) as [w1 ok] eqn:E. split.
    + destruct ok.
      * intros H. apply IH in H. destruct H as (-> & pre & m' & post & w2 & -> & H1 & H2).
        split; [reflexivity|]. exists (m :: pre), m', post, w2. repeat split; auto.
        econstructor; [apply ctx_of|exact E|exact H1].
      * intros H; inversion H; subst. split; [reflexivity|]. exists [], m, ms, w. split; [reflexivity|].
        split; [constructor|]. eexists. split; [apply ctx_of|exact E].
    + intros (-> & pre & m' & post & w2 & Hms & H1 & H2). destruct pre as [|m0 pre]; inversion Hms; subst.
      * inversion H1; subst. destruct H2 as (ctx & Hc & Hs). apply ctx_unique in Hc. subst ctx.
        rewrite E in Hs. inversion Hs; subst. reflexivity.
      * inversion H1 as [|? ? ? ? ? ? Hc Hs Ha]; subst. apply ctx_unique in Hc. subst ctx. rewrite E in Hs. inversion Hs; subst.
        apply IH. split; [reflexivity|]. exists pre, m', post, w2. auto.
Qed.

(** ** Tags *)
Lemma tag_inj a : forall b c d, no_colon a -> no_colon c ->
  (a ++ "::" ++ b = c ++ "::" ++ d)%string -> a = c /\ b = d.
Proof.
  unfold no_colon. induction a as [|x a IH]; intros b [|y c] d Ha Hc H.
  - cbn in H. inversion H. auto.
  - cbn in H. inversion H; subst. exfalso. apply Hc. now left.
  - cbn in H. inversion H; subst. exfalso. apply Ha. now left.
  - cbn in H. inversion H; subst. destruct (IH b c d) as [-> ->]; auto.
    + intros Hx. apply Ha. now right.
    + intros Hx. apply Hc. now right.
Qed.
