(** C109 to C111: resolving the references of a workflow. *)
From Verif Require Import Base Chars SubstModel SubstProofs SubstProps ResolveModel ResolveSpec ResolveProofs WfYamlModel WfYamlSpec WfYamlProofs WfYamlProps WfTypes
  WfResolveModel WfResolveSpec WfResolveProofs.
Local Open Scope list_scope.

Section Params.
Variable F : Type.
Variable parse_f64 : text -> option F.
Variable env : text -> option text.
Variable k : classes.
Hypothesis Hk : sane k.
Notation resolve_workflow := (resolve_workflow F parse_f64 env).
Notation y_workflow := (y_workflow F parse_f64 k).

(** * What is read from YAML is readable *)
Lemma node_proper : forall v n, is_node F parse_f64 k v n -> proper F n.
Proof.
  apply (yaml_deep (fun v => forall n, is_node F parse_f64 k v n -> proper F n)). intros v IHl IHm n H d Ho.
  destruct H as [z|b|t f E|t ps E|l r Hl|m r Hm]; inversion Ho as [|d' x y l' Hy Hoy|d' x y key m' Hy Hoy]; subst.
  - pose proof (C53_never_panics k Hk t) as P. rewrite E in P. now apply P.
  - assert (G : exists u, In u l /\ is_node F parse_f64 k u y).
    { clear - Hl Hy. induction Hl as [|a b l r Hab Hl IH]; [destruct Hy|]. destruct Hy as [->|Hy]; [exists a; split; [now left|exact Hab]|].
      destruct (IH Hy) as (u & Hu & Hn). exists u. split; [now right|exact Hn]. }
    destruct G as (u & Hu & Hn). exact (IHl l u u eq_refl Hu (in_here u) y Hn d' Hoy).
  - assert (G : exists u, In (key, u) (entries_of m) /\ is_node F parse_f64 k u y).
    { clear - Hm Hy. induction Hm as [|[ka a] [kb b] l r [Hab Hn] Hl IH]; [destruct Hy|]. cbn in *. destruct Hy as [X|Hy]; [injection X as -> ->; subst; exists a; split; [now left|exact Hn]|].
      destruct (IH Hy) as (u & Hu & Hn'). exists u. split; [now right|exact Hn']. }
    destruct G as (u & Hu & Hn). unfold entries_of in Hu. apply in_flat_map in Hu. destruct Hu as ([[key'|] w] & Hw & X); cbn in X; [|destruct X].
    destruct X as [X|[]]. injection X as -> ->. exact (IHm m (Some key) u u eq_refl Hw (in_here u) y Hn d' Hoy).
Qed.
Lemma scalar_proper s : proper F (NScalar F s).
Proof. intros d Ho. inversion Ho. Qed.
Lemma ref_proper v n : is_reference F k v n -> proper F n.
Proof. intros (t & name & _ & _ & ->) d Ho. inversion Ho. Qed.
Lemma int_proper v n : is_int F k v n -> proper F n.
Proof. intros [(z & _ & ->)|H]; [apply scalar_proper|eapply ref_proper; eassumption]. Qed.
Lemma bool_proper v n : is_bool F k v n -> proper F n.
Proof. intros [(z & _ & ->)|H]; [apply scalar_proper|eapply ref_proper; eassumption]. Qed.
Lemma real_proper v n : is_real F parse_f64 k v n -> proper F n.
Proof. intros [(z & f & _ & _ & ->)|H]; [apply scalar_proper|eapply ref_proper; eassumption]. Qed.
Lemma optional_all {A} (P : A -> Prop) m key (R : yaml -> A -> Prop) o : (forall v a, In (Some key, v) m -> R v a -> P a) -> optional m key R o -> Forall P (opt_list o).
Proof. intros H [(v & a & Hi & Hr & ->)|[_ ->]]; cbn; [constructor; [eapply H; eassumption|constructor]|constructor]. Qed.
Lemma optional_lists {A} (P : A -> Prop) m key (R : yaml -> list A -> Prop) o : (forall v a, In (Some key, v) m -> R v a -> Forall P a) -> optional m key R o -> Forall P (opt_lists o).
Proof. intros H [(v & a & Hi & Hr & ->)|[_ ->]]; cbn; [eapply H; eassumption|constructor]. Qed.
Lemma forall2_right {A B} (R : A -> B -> Prop) (P : B -> Prop) l r : (forall a b, In a l -> R a b -> P b) -> Forall2 R l r -> Forall P r.
Proof. intros H H2. induction H2 as [|a b l r Hab Hl IH]; constructor; [eapply H; [now left|exact Hab]|]. apply IH. intros x y Hx. apply H. now right. Qed.
Lemma list_all {B} (P : B -> Prop) (R : list (option text * yaml) -> B -> Prop) v (r : list B) : (forall m b, inside (YMap m) v -> R m b -> P b) -> is_list R v r -> Forall P r.
Proof.
  intros H (l & -> & Hl). eapply forall2_right; [|exact Hl]. intros m b Hm. apply H. unfold maps_of in Hm. apply in_flat_map in Hm.
  destruct Hm as (u & Hu & X). destruct u; cbn in X; try (destruct X; fail). destruct X as [<-|[]]. econstructor; [exact Hu|constructor].
Qed.
Lemma flat_all {A B} (P : B -> Prop) (f : A -> list B) l : Forall (fun a => Forall P (f a)) l -> Forall P (flat_map f l).
Proof. intros H. induction H; cbn; [constructor|apply Forall_app; auto]. Qed.
Lemma condition_proper m c : is_condition F parse_f64 k m c -> Forall (proper F) (condition_values F c).
Proof. intros ((v & _ & l & _ & Hl) & _). eapply forall2_right; [|exact Hl]. intros a b _. apply node_proper. Qed.
Lemma rule_proper m u : is_rule F parse_f64 k m u -> Forall (proper F) (rule_values F u).
Proof.
  intros (H1 & H2 & H3 & H4 & _). unfold rule_values. apply flat_all. rewrite !Forall_app. repeat split.
  - eapply optional_lists; [|exact H1]. intros v a _. apply list_all. intros m' b _. apply condition_proper.
  - eapply optional_lists; [|exact H2]. intros v a _. apply list_all. intros m' b _. apply condition_proper.
  - eapply optional_all; [|exact H3]. intros v a _ (m' & _ & X). eapply condition_proper; eassumption.
  - eapply optional_all; [|exact H4]. intros v a _ (m' & _ & X). eapply condition_proper; eassumption.
Qed.
Lemma retry_proper m y : is_retry F parse_f64 k m y -> Forall (proper F) (retry_values F y).
Proof.
  intros (_ & H1 & H2 & H3 & H4 & H5). unfold retry_values. rewrite !Forall_app. repeat split.
  - eapply optional_all; [|exact H1]. intros v a _. apply int_proper.
  - eapply optional_all; [|exact H2]. intros v a _. apply int_proper.
  - eapply optional_all; [|exact H3]. intros v a _. apply int_proper.
  - eapply optional_all; [|exact H4]. intros v a _. apply bool_proper.
  - eapply optional_all; [|exact H5]. intros v a _. apply real_proper.
Qed.
Lemma entries_in m key v : In (key, v) (entries_of m) -> In (Some key, v) m.
Proof. unfold entries_of. intros H. apply in_flat_map in H. destruct H as ([[key'|] w] & Hw & X); cbn in X; [|destruct X]. destruct X as [X|[]]. now injection X as -> ->. Qed.
Lemma states_readable (P : yaml -> Prop) m r : (forall key v, In (key, v) m -> forall s, is_state F parse_f64 k v s -> readable F s) ->
  Forall2 (fun x y => fst x = fst y /\ is_state F parse_f64 k (snd x) (snd y)) (entries_of m) r -> forall e, In e r -> readable F (snd e).
Proof.
  intros H Hr. apply Forall_forall. eapply forall2_right; [|exact Hr]. intros [key v] [key' s] Ha [_ X]. cbn in *. eapply H; [apply entries_in; exact Ha|exact X].
Qed.
Lemma state_readable : forall v s, is_state F parse_f64 k v s -> readable F s.
Proof.
  apply (yaml_deep (fun v => forall s, is_state F parse_f64 k v s -> readable F s)). intros v _ IHm s H. destruct H as [m s _ _ _ _ _ _ _ Hpt _ Hen Hds Hre Hti _ _ Hbr Hrt _].
  constructor.
  - unfold state_values. rewrite !Forall_app. repeat split.
    + apply Forall_map. eapply optional_lists; [|exact Hpt]. intros w r _ (m' & _ & X). eapply forall2_right; [|exact X]. intros a b _ [_ Y]. eapply node_proper; eassumption.
    + eapply optional_all; [|exact Hen]. intros w r _. apply bool_proper.
    + eapply optional_all; [|exact Hre]. intros w r _. apply node_proper.
    + eapply optional_all; [|exact Hti]. intros w r _. apply int_proper.
    + apply flat_all. eapply optional_lists; [|exact Hds]. intros w r _. apply list_all. intros m' b _. apply rule_proper.
    + apply flat_all. eapply optional_lists; [|exact Hrt]. intros w r _. apply list_all. intros m' b _. apply retry_proper.
  - intros b e Hb He.
    assert (G : Forall (fun b => forall e, In e (snd b) -> readable F (snd e)) (opt_lists (ss_branches F s))).
    { eapply optional_lists; [|exact Hbr]. intros w r Hw. apply list_all. intros bm b' Hin [_ [(sv & Hsv & sm & -> & X)|[_ X]]].
      - eapply (states_readable (fun _ => True)); [|exact X]. intros key u Hu s' Hs'. refine (IHm m (Some (chars "parallelBranches")) w u eq_refl Hw _ s' Hs').
        eapply inside_trans; [|exact Hin]. eapply in_map; [exact Hsv|]. eapply in_map; [exact Hu|constructor].
      - rewrite X. intros e' []. }
    rewrite Forall_forall in G. exact (G b Hb e He).
Qed.
(** The hypothesis of the next theorem holds of every workflow read from YAML. *)
Theorem C109_readable : forall m w, one_each (YMap m) -> y_workflow m = Ok w -> readable_workflow F w.
Proof.
  intros m w Hm Hw. apply C104_exact in Hw; [|exact Hk|exact Hm]. destruct Hw as (_ & _ & [(sv & Hsv & sm & -> & X)|[_ X]]).
  - intros e He. eapply (states_readable (fun _ => True)); [|exact X|exact He]. intros key v _. apply state_readable.
  - intros e He. rewrite X in He. destruct He.
Qed.

(** * Resolution *)
(** The result is the workflow that the definition stands for, in every field of every state and of
    the states of its branches; there is none when the code returns an error. *)
Theorem C109_exact : forall w, readable_workflow F w ->
  (forall r, resolve_workflow w = Ok r <-> workflow_is F parse_f64 env w r) /\ resolve_workflow w <> Panic.
Proof. intros w Hw. split; [intros r; now apply workflow_ok|now apply workflow_safe]. Qed.
(** From a document: the two steps together *)
Theorem C109_loaded : forall m, one_each (YMap m) -> forall r,
  (exists w, y_workflow m = Ok w /\ resolve_workflow w = Ok r) <-> exists w, is_workflow F parse_f64 k m w /\ workflow_is F parse_f64 env w r.
Proof.
  intros m Hm r. split; intros (w & Hw & X); exists w.
  - split; [now apply C104_exact|]. apply workflow_ok; [eapply C109_readable; eassumption|exact X].
  - apply C104_exact in Hw; [|exact Hk|exact Hm]. split; [exact Hw|]. apply workflow_ok; [eapply C109_readable; eassumption|exact X].
Qed.

(** * Types of states *)
(** Each type has its name. *)
Theorem C110_known_partial : forall ps t ty, parts_text env ps t -> ty <> Unknown ->
  (resolve_type env ps = Ok ty <-> In (t, ty) type_names).
Proof.
  intros ps t ty Ht Hty. rewrite type_ok. split.
  - intros (t' & Ht' & [X|[_ X]]); [|contradiction]. apply str_ok in Ht, Ht'. congruence.
  - intros X. exists t. split; [exact Ht|now left].
Qed.
(** Any other name is accepted too, also one that differs in case only. *)
Theorem C110_unknown_refuted : forall ps t, parts_text env ps t -> (forall ty, ~ In (t, ty) type_names) -> resolve_type env ps = Ok Unknown.
Proof. intros ps t Ht Hn. apply type_ok. exists t. split; [exact Ht|]. right. auto. Qed.

(** * Depth of values *)
(** A value that a state may have as its result is rejected as an input of a condition when it is more
    than 16 levels deep, and in a payload template when it is more than 19. *)
Theorem C111_depth_refuted : forall n r f pn, proper F n -> resolved F parse_f64 env n r -> ~ deeper_than F 20 n -> parts_text env f pn ->
  resolve_node F parse_f64 env 0 n = Ok r /\
  (deeper_than F 16 n -> forall x, resolve_condition F parse_f64 env 2 {| sc_inputs := [n]; sc_function := f |} <> Ok x) /\
  (deeper_than F 19 n -> forall key x, resolve_payload F parse_f64 env (Some [(key, n)]) <> Ok x).
Proof.
  intros n r f pn Hp Hr Hd Hf. split; [|split].
  - apply node_at_ok; [lia|exact Hp|split; assumption].
  - intros D x X. apply condition_ok in X; [|constructor; [exact Hp|constructor]]. destruct X as [X _]. cbn in X. inversion X as [|a b l l' [_ Y] _]; subst. now apply Y.
  - intros D key x X. apply payload_ok in X; [|cbn; constructor; [exact Hp|constructor]]. inversion X as [|a b Y]; subst. inversion Y as [|a' b' l l' (_ & _ & Z) _]; subst. now apply Z.
Qed.
(** Within those bounds it is accepted everywhere. *)
Theorem C111_depth_partial : forall n r f t, proper F n -> resolved F parse_f64 env n r -> ~ deeper_than F 16 n -> parts_text env f t ->
  resolve_node F parse_f64 env 0 n = Ok r /\
  resolve_condition F parse_f64 env 2 {| sc_inputs := [n]; sc_function := f |} = Ok {| rc_inputs := [r]; rc_function := t |} /\
  (forall key, resolve_payload F parse_f64 env (Some [(key, n)]) = Ok (Some [(key, r)])).
Proof.
  intros n r f t Hp Hr Hd Hf.
  assert (D : forall d, 16 <= d -> ~ deeper_than F d n) by (intros d Hle (d' & x & Hlt & Ho); apply Hd; exists d', x; split; [lia|exact Ho]).
  split; [|split].
  - apply node_at_ok; [lia|exact Hp|]. split; [exact Hr|apply D; lia].
  - apply condition_ok; [constructor; [exact Hp|constructor]|]. split; cbn; [constructor; [split; assumption|constructor]|exact Hf].
  - intros key. apply payload_ok; [cbn; constructor; [exact Hp|constructor]|]. constructor. constructor; [|constructor]. split; [reflexivity|]. split; [exact Hr|apply D; lia].
Qed.
End Params.

(** * Cases that meet the hypotheses *)
Definition sample_env (n : text) : option text := if text_eqb n (chars "CELERITY_VARIABLE_timeout") then Some (chars "30") else None.
Example C109_nonvacuous : one_each (YMap sample) /\
  exists w r b s, y_workflow Z tenths ascii_classes sample = Ok w /\ readable_workflow Z w /\
    resolve_workflow Z tenths sample_env w = Ok r /\ fst r = chars "Both" /\ snd r = [(chars "Both", b)] /\
    rs_type Z b = Parallel /\ rs_branches Z b = Some [(chars "Fetch", [(chars "Fetch", s)])] /\ rs_type Z s = ExecuteStep /\ rs_timeout Z s = Some 30%Z /\
    resolve_workflow Z tenths (fun _ => None) w = Err MissingVariable.
Proof.
  assert (H : one_each (YMap sample)) by (apply once_sound; vm_compute; reflexivity). split; [exact H|].
  assert (E : exists w, y_workflow Z tenths ascii_classes sample = Ok w) by (eexists; vm_compute; reflexivity). destruct E as (w & E).
  pose proof (C109_readable Z tenths ascii_classes ascii_sane sample w H E) as R. exists w. vm_compute in E. injection E as <-.
  do 3 eexists. split; [vm_compute; reflexivity|]. split; [exact R|]. split; [vm_compute; reflexivity|]. repeat split.
Qed.
Example C110_nonvacuous :
  resolve_type sample_env [Lit (chars "pass")] = Ok Pass /\ parts_text sample_env [Lit (chars "Pass")] (chars "Pass") /\ (forall ty, ~ In (chars "Pass", ty) type_names).
Proof.
  split; [reflexivity|]. split; [exists [chars "Pass"]; split; [constructor; [reflexivity|constructor]|reflexivity]|].
  intros ty H. cbn [type_names In] in H. repeat (destruct H as [H|H]; [injection H; intros; discriminate|]). exact H.
Qed.
Fixpoint nest (d : nat) : node Z := match d with 0 => NScalar Z (SInt Z 1) | S d' => NSeq Z [nest d'] end.
Fixpoint rnest (d : nat) : rnode Z := match d with 0 => RScalar Z (SInt Z 1) | S d' => RSeq Z [rnest d'] end.
Lemma nest_occurs d : forall e x, occurs_at Z e x (nest d) -> e <= d /\ x = nest (d - e).
Proof.
  induction d as [|d IH]; intros e x H; inversion H as [|e' x' y l Hy Ho|]; subst; cbn; try (split; [lia|reflexivity]).
  destruct Hy as [<-|[]]. destruct (IH _ _ Ho). split; [lia|assumption].
Qed.
Example C111_nonvacuous : proper Z (nest 18) /\ resolved Z tenths sample_env (nest 18) (rnest 18) /\ ~ deeper_than Z 20 (nest 18) /\ deeper_than Z 16 (nest 18) /\
  ~ deeper_than Z 16 (nest 10) /\ resolve_node Z tenths sample_env 4 (nest 18) = Err (MaxDepth 21).
Proof.
  assert (D : forall d e, e <= d -> occurs_at Z e (nest (d - e)) (nest d)).
  { induction d as [|d IH]; intros [|e] Hle; try (constructor; fail); [lia|]. cbn [nest]. eapply oa_seq; [now left|]. replace (S d - S e) with (d - e) by lia. apply IH. lia. }
  split; [intros d Ho; apply nest_occurs in Ho; destruct Ho as [_ Ho]; destruct (18 - d); discriminate|].
  split; [cbn; repeat (constructor; [|constructor]) || idtac; repeat constructor|].
  split; [intros (d & x & Hlt & Ho); apply nest_occurs in Ho; lia|].
  split; [exists 17, (nest (18 - 17)); split; [lia|apply D; lia]|].
  split; [intros (d & x & Hlt & Ho); apply nest_occurs in Ho; lia|reflexivity].
Qed.

Print Assumptions C109_readable.
Print Assumptions C109_exact.
Print Assumptions C109_loaded.
Print Assumptions C110_known_partial.
Print Assumptions C110_unknown_refuted.
Print Assumptions C111_depth_refuted.
Print Assumptions C111_depth_partial.
