(** Proofs for C151: a history that ends in a jam, for channels of any size. *)
From Verif Require Import Base AckModel AckSpec ClusterModel ClusterSpec ClusterTrans ClusterCalls PumpModel PumpSpec PumpProofs PumpJam.
Open Scope string_scope.
Local Open Scope list_scope.
Local Arguments room : simpl never.

(** Steps of one node that publish nothing. *)
Fixpoint bnrun (K : caps) (b : bnode) (evs : list bevent) : option (bnode * list nlog) :=
  match evs with
  | [] => Some (b, [])
  | ev :: evs' =>
      match bnstep K b ev with
      | Some (b', l, []) => match bnrun K b' evs' with Some (b2, l2) => Some (b2, l ++ l2) | None => None end
      | _ => None
      end
  end.
Lemma bnrun_app K e1 : forall b e2 b1 l1 b2 l2, bnrun K b e1 = Some (b1, l1) -> bnrun K b1 e2 = Some (b2, l2) ->
  bnrun K b (e1 ++ e2) = Some (b2, l1 ++ l2).
Proof.
  induction e1 as [|e e1 IH]; intros b e2 b1 l1 b2 l2 H1 H2; cbn in *.
  - inversion H1; subst. exact H2.
  - destruct (bnstep K b e) as [[[b' l] [|w ws]]|]; try discriminate. destruct (bnrun K b' e1) as [[b3 l3]|] eqn:E; [|discriminate].
    inversion H1; subst. rewrite (IH _ _ _ _ _ _ E H2). now rewrite app_assoc.
Qed.

Lemma bpublish_nil b : bpublish [] b = b.
Proof. unfold bpublish. rewrite publish_nil. now destruct b. Qed.

Lemma local_run K u evs : forall c log b' l, (u < bc_size c)%nat -> bnrun K (bc_node c u) evs = Some (b', l) ->
  exists c', bcrun K c log (map (pair u) evs) = Some (c', log ++ map (pair u) l) /\ bc_size c' = bc_size c /\
    bc_node c' u = b' /\ forall j, j <> u -> bc_node c' j = bc_node c j.
Proof.
  induction evs as [|ev evs IH]; intros c log b' l Hu H; cbn [bnrun] in H.
  - inversion H; subst. exists c. cbn. rewrite app_nil_r. auto.
  - destruct (bnstep K (bc_node c u) ev) as [[[b1 l1] [|w ws]]|] eqn:E; try discriminate.
    destruct (bnrun K b1 evs) as [[b2 l2]|] eqn:E2; [|discriminate]. inversion H; subst.
    set (c1 := {| bc_size := bc_size c; bc_node := fun j => bpublish [] (if Nat.eqb j u then b1 else bc_node c j) |}).
    assert (E1: bcstep K c u ev = Some (c1, map (pair u) l1)).
    { unfold bcstep. rewrite (proj2 (Nat.ltb_lt _ _) Hu), E. reflexivity. }
    assert (N1: bc_node c1 u = b1) by (cbn; now rewrite Nat.eqb_refl, bpublish_nil).
    destruct (IH c1 (log ++ map (pair u) l1) b' l2) as (c' & Hr & Hs & Hn & Ho); [exact Hu|now rewrite N1|].
    exists c'. cbn [map bcrun]. rewrite E1, Hr, map_app, app_assoc. repeat split; auto.
    intros j Hj. rewrite (Ho j Hj). cbn. now rewrite (proj2 (Nat.eqb_neq _ _) Hj), bpublish_nil.
Qed.

Definition calls (l : list nlog) : nat := length (filter is_call l).
Lemma calls_app a b : calls (a ++ b) = (calls a + calls b)%nat.
Proof. unfold calls. now rewrite filter_app, app_length. Qed.

Lemma nth_last {A} (l : list A) x : nth_error (l ++ [x]) (length l) = Some x.
Proof. rewrite nth_error_app2 by lia. now rewrite Nat.sub_diag. Qed.
Lemma set_last {A} (l : list A) x y : set_nth (length l) y (l ++ [x]) = l ++ [y].
Proof. induction l as [|a l IH]; cbn; [reflexivity|]. now rewrite IH. Qed.

(** A call for a connection elsewhere, from start to end. *)
Definition out_of (n : node) (conn id text : string) : bus_message :=
  MsgWs {| wm_conn := conn; wm_source := n_name n; wm_inform := []; wm_id := id; wm_text := text |}.
Definition send_evs (n : node) (conn id text : string) : list bevent :=
  let k := length (n_jobs n) in
  [BEv (ECall conn id text [] false); BEv (EJob k true); BEv (EJob k true); BEv (EWorkerRecv 0%N); BEv (EJob k true)].

Definition kept (n n' : node) : Prop :=
  n_name n' = n_name n /\ n_bus n' = n_bus n /\ n_bcast n' = n_bcast n /\ n_conns n' = n_conns n /\ n_started n' = n_started n /\
  n_inbox n' = n_inbox n /\ n_listener n' = n_listener n /\ n_sub n' = n_sub n /\ n_in n' = n_in n.
Lemma kept_refl n : kept n n. Proof. now repeat split. Qed.
Lemma kept_trans a b c : kept a b -> kept b c -> kept a c.
Proof. unfold kept. intuition congruence. Qed.

Lemma step_ev K b e n' l : gate K b e = true -> nstep (b_node b) e = Some (n', l, []) ->
  bnstep K b (BEv e) = Some ({| b_node := n'; b_hand := b_hand b |}, l, []).
Proof. intros Hg Hn. cbn. now rewrite Hg, Hn. Qed.

Lemma send_one K b conn id text : sized K -> n_bcast (b_node b) = true -> n_started (b_node b) = true -> n_inbox (b_node b) = [] ->
  has_conn conn (b_node b) = false -> (length (n_out (b_node b)) < cap_out K)%nat ->
  exists b' l, bnrun K b (send_evs (b_node b) conn id text) = Some (b', l) /\ b_hand b' = b_hand b /\ kept (b_node b) (b_node b') /\
    n_out (b_node b') = n_out (b_node b) ++ [out_of (b_node b) conn id text] /\ calls l = 1%nat /\ forallb went_right l = true.
Proof.
  intros (Ko & Ki & Ka & _) Hb Hs Hi Hc Hr. destruct b as [n h]. cbn [b_node b_hand] in *. set (k := length (n_jobs n)).
  set (j0 := {| j_conn := conn; j_id := id; j_text := text; j_inform := []; j_wait := false; j_phase := PLookup |}).
  set (n1 := set_jobs n (n_jobs n ++ [j0])).
  set (n2 := set_jobs n (n_jobs n ++ [with_phase j0 PRecord])).
  set (n3 := set_jobs (set_inbox n [MStatus id (Pending text [])]) (n_jobs n ++ [with_phase j0 PPublish])).
  set (w' := {| w_acks := record_ack (w_acks (n_worker n)) id (Pending text []) 0%N; w_ticker := w_ticker (n_worker n); w_waits := w_waits (n_worker n) |}).
  set (n4 := set_worker (set_inbox n3 []) w').
  set (n5 := set_jobs (set_out n4 (n_out n ++ [out_of n conn id text])) (n_jobs n ++ [with_phase j0 (PDone RSent)])).
  assert (S1: bnstep K {| b_node := n; b_hand := h |} (BEv (ECall conn id text [] false)) = Some ({| b_node := n1; b_hand := h |}, [NCall k conn id text [] false], []))
    by reflexivity.
  assert (S2: bnstep K {| b_node := n1; b_hand := h |} (BEv (EJob k true)) = Some ({| b_node := n2; b_hand := h |}, [NFound (ByCall k) conn false], [])).
  { apply step_ev; cbn [gate nstep b_node]; cbn [n1 set_jobs n_jobs]; unfold k; rewrite nth_last; [reflexivity|].
    unfold send_step. cbn [j0 j_phase j_conn].
    unfold n1, has_conn. cbn [set_jobs n_conns]. fold (has_conn conn n). rewrite Hc. cbn. rewrite Hb. cbn. now rewrite set_last. }
  assert (S3: bnstep K {| b_node := n2; b_hand := h |} (BEv (EJob k true)) =
      Some ({| b_node := n3; b_hand := h |}, [NInbox (ByCall k) (MStatus id (Pending text []))], [])).
  { apply step_ev; cbn [gate nstep b_node]; cbn [n2 set_jobs n_jobs]; unfold k; rewrite nth_last; cbn.
    - rewrite Hs, Hi. apply room_true. cbn. lia.
    - unfold to_worker. cbn. rewrite Hs, Hi. cbn. rewrite set_last. reflexivity. }
  assert (S4: bnstep K {| b_node := n3; b_hand := h |} (BEv (EWorkerRecv 0%N)) =
      Some ({| b_node := n4; b_hand := h |}, [NWorker (LRecord id (Pending text []) 0%N)], [])) by reflexivity.
  assert (S5: bnstep K {| b_node := n4; b_hand := h |} (BEv (EJob k true)) =
      Some ({| b_node := n5; b_hand := h |}, [NOut (ByCall k) (out_of n conn id text); NReturn k RSent], [])).
  { apply step_ev; cbn [gate nstep b_node]; cbn [n4 n3 set_jobs set_worker set_inbox n_jobs]; unfold k; rewrite nth_last; cbn.
    - now apply room_true.
    - rewrite set_last. reflexivity. }
  exists {| b_node := n5; b_hand := h |}. eexists. split.
  { unfold send_evs. fold k. cbn [bnrun]. rewrite S1, S2, S3, S4, S5. reflexivity. }
  repeat split; auto.
Qed.

Lemma send_many K conn (ids : nat -> string) : sized K -> forall x b,
  n_bcast (b_node b) = true -> n_started (b_node b) = true -> n_inbox (b_node b) = [] -> has_conn conn (b_node b) = false ->
  (length (n_out (b_node b)) + x <= cap_out K)%nat ->
  exists evs b' l, bnrun K b evs = Some (b', l) /\ b_hand b' = b_hand b /\ kept (b_node b) (b_node b') /\
    length (n_out (b_node b')) = (length (n_out (b_node b)) + x)%nat /\ calls l = x /\ forallb went_right l = true.
Proof.
  intros HK. induction x as [|x IH]; intros b Hb Hs Hi Hc Hr.
  - exists [], b, []. split; [reflexivity|]. split; [reflexivity|]. split; [apply kept_refl|]. now rewrite Nat.add_0_r.
  - destruct (send_one K b conn (ids x) "hi" HK Hb Hs Hi Hc ltac:(lia)) as (b1 & l1 & R1 & H1 & K1 & O1 & C1 & F1).
    pose proof K1 as (_ & _ & Kb & Kc & Ks & Ki & _).
    destruct (IH b1) as (evs & b2 & l2 & R2 & H2 & K2 & O2 & C2 & F2).
    + congruence.
    + congruence.
    + congruence.
    + unfold has_conn in *. now rewrite Kc.
    + rewrite O1, app_length. cbn. lia.
    + exists (send_evs (b_node b) conn (ids x) "hi" ++ evs), b2, (l1 ++ l2). split; [eapply bnrun_app; eauto|]. split; [congruence|].
      split; [eapply kept_trans; eauto|]. split; [rewrite O2, O1, app_length; cbn; lia|]. split; [rewrite calls_app; lia|].
      now rewrite forallb_app, F1, F2.
Qed.

(** A message for connection "x" of a node called "a", sent by the node called "b". *)
Definition for_x (w : wrapped) : Prop := exists id text, w = {| wr_source := "b"; wr_message := MsgWs {| wm_conn := "x"; wm_source := "b"; wm_inform := []; wm_id := id; wm_text := text |} |}.

Lemma fill K : forall x b ws, n_bus (b_node b) = "a" -> b_hand b = None -> n_sub (b_node b) = ws -> Forall for_x ws -> (x + 1 <= length ws)%nat ->
  (length (n_in (b_node b)) + x <= cap_in K)%nat ->
  exists evs b' l, bnrun K b evs = Some (b', l) /\ (exists m, b_hand b' = Some m) /\ length (n_in (b_node b')) = (length (n_in (b_node b)) + x)%nat /\
    calls l = 0%nat /\ forallb went_right l = true /\
    n_bcast (b_node b') = n_bcast (b_node b) /\ n_started (b_node b') = n_started (b_node b) /\ n_inbox (b_node b') = n_inbox (b_node b) /\
    n_conns (b_node b') = n_conns (b_node b) /\ n_listener (b_node b') = n_listener (b_node b) /\ n_out (b_node b') = n_out (b_node b).
Proof.
  induction x as [|x IH]; intros b ws Hb Hh Hs Hw Hl Hr; destruct b as [n h]; cbn [b_node b_hand] in *; subst h.
  - destruct ws as [|w ws]; [cbn in Hl; lia|]. inversion Hw as [|? ? (id & text & ->)]; subst.
    exists [BTake]. do 2 eexists. split; [cbn [bnrun bnstep b_node b_hand]; rewrite Hs; unfold relevant; rewrite Hb; cbn; reflexivity|].
    cbn. rewrite Nat.add_0_r. repeat split; eauto.
  - destruct ws as [|w ws]; [cbn in Hl; lia|]. inversion Hw as [|? ? (id & text & ->) Hw']; subst.
    set (m := MsgWs {| wm_conn := "x"; wm_source := "b"; wm_inform := []; wm_id := id; wm_text := text |}) in *.
    set (b1 := {| b_node := set_in (set_sub n ws) (n_in n ++ [m]); b_hand := None |}).
    assert (R1: bnrun K {| b_node := n; b_hand := None |} [BTake; BPush] = Some (b1, [NTake {| wr_source := "b"; wr_message := m |}])).
    { cbn [bnrun bnstep b_node b_hand]. rewrite Hs. unfold relevant. rewrite Hb. cbn. rewrite (proj2 (room_true _ _)) by lia. reflexivity. }
    destruct (IH b1 ws) as (evs & b2 & l2 & R2 & M2 & I2 & C2 & F2 & G2); auto.
    + cbn in *. lia.
    + cbn. rewrite app_length. cbn. lia.
    + exists ([BTake; BPush] ++ evs), b2. eexists. split; [eapply bnrun_app; eauto|]. split; [exact M2|].
      split; [rewrite I2; cbn; rewrite app_length; cbn; lia|]. split; [exact C2|]. split; [exact F2|]. exact G2.
Qed.

(** Node "a", with connection "x", when enough messages for it are waiting. *)
Definition node_a (cf : ack_config) (ws : list wrapped) : node :=
  set_sub (set_conns (set_started (new_node "a" "a" true cf) true) ["x"]) ws.
Lemma jam_up K cf (ids : nat -> string) ws : sized K -> Forall for_x ws -> (cap_in K + 2 <= length ws)%nat ->
  exists evs b' l, bnrun K {| b_node := node_a cf ws; b_hand := None |} evs = Some (b', l) /\ jammed K b' /\
    calls l = cap_out K /\ forallb went_right l = true.
Proof.
  intros HK Hw Hl. pose proof HK as (Ko & Ki & Ka & _). destruct ws as [|w ws]; [cbn in Hl; lia|]. inversion Hw as [|? ? (id & text & ->) Hw']; subst.
  set (m := {| wm_conn := "x"; wm_source := "b"; wm_inform := []; wm_id := id; wm_text := text |}) in *.
  set (b1 := {| b_node := set_listener (node_a cf ws) (LAck m); b_hand := None |}).
  assert (R1: exists l, bnrun K {| b_node := node_a cf ({| wr_source := "b"; wr_message := MsgWs m |} :: ws); b_hand := None |}
    [BTake; BPush; BEv (EListen true); BEv (EWorkerRecv 0%N); BEv (EListen true); BEv (EListen true)] = Some (b1, l) /\ calls l = 0%nat /\ forallb went_right l = true).
  { set (a0 := node_a cf ws).
    assert (S1: bnstep K {| b_node := node_a cf ({| wr_source := "b"; wr_message := MsgWs m |} :: ws); b_hand := None |} BTake =
      Some ({| b_node := a0; b_hand := Some (MsgWs m) |}, [NTake {| wr_source := "b"; wr_message := MsgWs m |}], [])) by reflexivity.
    assert (S2: bnstep K {| b_node := a0; b_hand := Some (MsgWs m) |} BPush = Some ({| b_node := set_in a0 [MsgWs m]; b_hand := None |}, [], [])).
    { cbn [bnstep b_hand b_node]. rewrite (proj2 (room_true _ _)) by (cbn; lia). reflexivity. }
    set (a2 := set_listener (set_inbox a0 [MCheck id 0]) (LChecking m)).
    assert (S3: bnstep K {| b_node := set_in a0 [MsgWs m]; b_hand := None |} (BEv (EListen true)) =
      Some ({| b_node := a2; b_hand := None |}, [NHear (MsgWs m); NInbox (ByListener m) (MCheck id 0)], [])).
    { apply step_ev; [|reflexivity]. cbn [gate b_node]. apply room_true. cbn. lia. }
    assert (S4: bnstep K {| b_node := a2; b_hand := None |} (BEv (EWorkerRecv 0%N)) =
      Some ({| b_node := set_listener a0 (LLookup m); b_hand := None |}, [NWorker (LCheck id 0 Lost)], [])) by (apply step_ev; reflexivity).
    assert (S5: bnstep K {| b_node := set_listener a0 (LLookup m); b_hand := None |} (BEv (EListen true)) =
      Some ({| b_node := set_listener a0 (LDeliver m); b_hand := None |}, [NFound (ByListener m) "x" true], [])) by (apply step_ev; reflexivity).
    assert (S6: bnstep K {| b_node := set_listener a0 (LDeliver m); b_hand := None |} (BEv (EListen true)) =
      Some (b1, [NWrite (ByListener m) "x" text true], [])) by (apply step_ev; reflexivity).
    eexists. split; [cbn [bnrun]; rewrite S1, S2, S3, S4, S5, S6; reflexivity|]. now split. }
  destruct R1 as (l1 & R1 & C1 & F1).
  destruct (fill K (cap_in K) b1 ws) as (evs2 & b2 & l2 & R2 & M2 & I2 & C2 & F2 & G1 & G2 & G3 & G4 & G5 & G6); auto.
  { cbn in Hl. lia. }
  destruct (send_many K "far" ids HK (cap_out K) b2) as (evs3 & b3 & l3 & R3 & M3 & K3 & O3 & C3 & F3).
  { now rewrite G1. } { now rewrite G2. } { now rewrite G3. } { unfold has_conn. now rewrite G4. } { rewrite G6. cbn. lia. }
  exists (([BTake; BPush; BEv (EListen true); BEv (EWorkerRecv 0%N); BEv (EListen true); BEv (EListen true)] ++ evs2) ++ evs3), b3, ((l1 ++ l2) ++ l3).
  split; [|split; [|split]].
  - eapply bnrun_app; [|exact R3]. eapply bnrun_app; [exact R1|exact R2].
  - destruct K3 as (_ & _ & K3b & _ & _ & _ & K3l & _ & K3i). unfold jammed. split; [destruct M2 as (y & M2); exists y; congruence|].
    split; [rewrite K3i, I2; cbn; lia|]. split; [exists m; rewrite K3l, G5; reflexivity|]. split; [rewrite K3b, G1; reflexivity|]. lia.
  - rewrite !calls_app. lia.
  - now rewrite !forallb_app, F1, F2, F3.
Qed.

(** Node "b" sends [x] messages to connection "x". *)
Lemma bombard K cf (ids : nat -> string) : sized K -> forall x c log, bc_size c = 2%nat ->
  (exists ws, bc_node c 0 = {| b_node := node_a cf ws; b_hand := None |} /\ Forall for_x ws /\ length ws + x = cap_in K + 2)%nat ->
  (let n := b_node (bc_node c 1) in n_name n = "b" /\ n_bus n = "b" /\ n_bcast n = true /\ n_started n = true /\ n_inbox n = [] /\ n_conns n = [] /\ n_out n = []) ->
  b_hand (bc_node c 1) = None ->
  exists evs c' l, bcrun K c log evs = Some (c', log ++ map (pair 1%nat) l) /\ bc_size c' = 2%nat /\
    (exists ws, bc_node c' 0 = {| b_node := node_a cf ws; b_hand := None |} /\ Forall for_x ws /\ length ws = cap_in K + 2)%nat /\
    calls l = x /\ forallb went_right l = true.
Proof.
  intros HK. induction x as [|x IH]; intros c log Hz (ws & E0 & Fw & Lw) H1 Hh.
  - exists [], c, []. cbn. rewrite app_nil_r. rewrite Nat.add_0_r in Lw. eauto 10.
  - destruct H1 as (N1 & N2 & N3 & N4 & N5 & N6 & N7).
    destruct (send_one K (bc_node c 1) "x" (ids x) "hello" HK N3 N4 N5) as (b1 & l1 & R1 & Hh1 & K1 & O1 & C1 & F1).
    { unfold has_conn. now rewrite N6. } { rewrite N7. destruct HK as (Ko & _). cbn. lia. }
    destruct (local_run K 1 _ c log b1 l1 ltac:(lia) R1) as (c1 & Rc & Z1 & Nb & No).
    set (m := MsgWs {| wm_conn := "x"; wm_source := "b"; wm_inform := []; wm_id := ids x; wm_text := "hello" |}).
    assert (O2: n_out (b_node b1) = [m]) by (rewrite O1, N7; unfold out_of; rewrite N1; reflexivity).
    destruct K1 as (Ka & Kb & Kc & Kd & Ke & Kf & _).
    set (w := {| wr_source := "b"; wr_message := m |}).
    set (c2 := {| bc_size := bc_size c1; bc_node := fun j => bpublish [w] (if Nat.eqb j 1 then {| b_node := set_out (b_node b1) []; b_hand := None |} else bc_node c1 j) |}).
    assert (S2: bcstep K c1 1 (BEv (EForward true)) = Some (c2, [(1%nat, NForward w true)])).
    { unfold bcstep. rewrite (proj2 (Nat.ltb_lt _ _)) by lia. rewrite Nb. cbn. rewrite Hh1, Hh, O2. cbn. rewrite Kb, N2. reflexivity. }
    destruct (IH c2 ((log ++ map (pair 1%nat) l1) ++ [(1%nat, NForward w true)])) as (evs & c' & l & R & Z & Ws & C & F).
    + cbn. lia.
    + exists (ws ++ [w]). split; [|split].
      * cbn. rewrite No by lia. rewrite E0. reflexivity.
      * apply Forall_app. split; [exact Fw|]. constructor; [|constructor]. exists (ids x), "hello". reflexivity.
      * rewrite app_length. cbn. lia.
    + cbn. repeat split; congruence.
    + reflexivity.
    + exists (map (pair 1%nat) (send_evs (b_node (bc_node c 1)) "x" (ids x) "hello") ++ (1%nat, BEv (EForward true)) :: evs), c', (l1 ++ NForward w true :: l).
      split; [|split; [exact Z|split; [exact Ws|split]]].
      * rewrite bcrun_app, Rc. cbn [bcrun]. rewrite S2, R, map_app, <- !app_assoc. reflexivity.
      * rewrite calls_app. change (calls (NForward w true :: l)) with (calls l). lia.
      * rewrite forallb_app, F1. exact F.
Qed.

(** Different names for different messages *)
Fixpoint mid (p : string) (k : nat) : string := match k with O => p | S k' => ("." ++ mid p k')%string end.

Definition two_nodes (cf : ack_config) : bcluster :=
  {| bc_size := 2; bc_node := fun i => {| b_node := if Nat.eqb i 0 then new_node "a" "a" true cf else new_node "b" "b" true cf; b_hand := None |} |}.
Lemma two_fresh cf : bfresh (two_nodes cf).
Proof. intros i. cbn. destruct (Nat.eqb i 0); do 4 eexists; reflexivity. Qed.

Lemma fine_pairs (u : nat) l : forallb went_right l = true -> forall e, In e (map (pair u) l) -> went_right (snd e) = true.
Proof. intros H e He. apply in_map_iff in He. destruct He as (x & <- & Hx). rewrite forallb_forall in H. now apply H. Qed.

Lemma reaches_jam K cf : sized K -> exists c log, breachable K (two_nodes cf) c log /\ jammed K (bc_node c 0) /\
  (forall e, In e log -> went_right (snd e) = true) /\ calls (on_node 0 log) = cap_out K /\ calls (on_node 1 log) = (cap_in K + 2)%nat.
Proof.
  intros HK.
  set (pre := [(0, BEv EStart); (0, BEv (EAdd "x")); (1, BEv EStart)]%nat).
  assert (P: exists c, bcrun K (two_nodes cf) [] pre = Some (c, [(0, NStarted); (0, NAdd "x"); (1, NStarted)]%nat) /\ bc_size c = 2%nat /\
     bc_node c 0 = {| b_node := node_a cf []; b_hand := None |} /\ bc_node c 1 = {| b_node := set_started (new_node "b" "b" true cf) true; b_hand := None |}).
  { eexists. split; [reflexivity|]. split; [reflexivity|]. split; reflexivity. }
  destruct P as (c & Hp & Hz & H0 & H1).
  destruct (bombard K cf (mid "b") HK (cap_in K + 2) c [(0, NStarted); (0, NAdd "x"); (1, NStarted)]%nat Hz) as (evs1 & c1 & l1 & R1 & Z1 & (ws & E1 & F1 & L1) & C1 & W1).
  - exists []. split; [exact H0|]. split; [constructor|]. reflexivity.
  - rewrite H1. now repeat split.
  - now rewrite H1.
  - destruct (jam_up K cf (mid "a") ws HK F1 ltac:(lia)) as (evs2 & b2 & l2 & R2 & J & C2 & W2). rewrite <- E1 in R2.
    destruct (local_run K 0 evs2 c1 ([(0, NStarted); (0, NAdd "x"); (1, NStarted)]%nat ++ map (pair 1%nat) l1) b2 l2 ltac:(lia) R2) as (c2 & Rc & _ & Nb & _).
    exists c2. eexists. split; [|split; [now rewrite Nb|split; [|split]]].
    + split; [apply two_fresh|]. exists (pre ++ evs1 ++ map (pair 0%nat) evs2). rewrite bcrun_app, Hp, bcrun_app, R1. exact Rc.
    + intros e He. apply in_app_or in He. destruct He as [He|He]; [|exact (fine_pairs 0%nat l2 W2 e He)].
      apply in_app_or in He. destruct He as [He|He]; [|exact (fine_pairs 1%nat l1 W1 e He)].
      cbn in He. destruct He as [<-|[<-|[<-|[]]]]; reflexivity.
    + rewrite !on_node_app. change (map (pair 1%nat) l1) with (map (fun e => (1%nat, e)) l1). change (map (pair 0%nat) l2) with (map (fun e => (0%nat, e)) l2).
      rewrite on_node_own, on_node_other by lia. rewrite app_nil_r, calls_app. cbn. exact C2.
    + rewrite !on_node_app. change (map (pair 1%nat) l1) with (map (fun e => (1%nat, e)) l1). change (map (pair 0%nat) l2) with (map (fun e => (0%nat, e)) l2).
      rewrite on_node_own, on_node_other by lia. rewrite app_nil_r, calls_app. cbn. exact C1.
Qed.
