(** C123 to C126: reading the specs of resources, metadata, link selectors and variables from JSON. *)
From Coq Require Import Permutation.
From Verif Require Import Base Chars SubstModel SubstProofs SubstProps ResolveModel ResolveSpec ResolveProofs BlueprintModel WfYamlModel WfYamlSpec WfYamlProofs WfYamlProps
  WfResolveModel WfResolveSpec WfResolveProofs WfResolveProps SpecYamlModel SpecYamlSpec SpecYamlProofs SpecYamlProps SpecResolveModel SpecResolveSpec SpecResolveProofs SpecResolveProps
  SpecJsonModel SpecJsonSpec SpecJsonProofs.
Local Open Scope list_scope.

Section Params.
Variable F : Type.
Variable parse_f64 : text -> option F.
Variable env : text -> option text.
Variable k : classes.
Hypothesis Hk : sane k.
Variable json_text : text -> option text.
Variable of_int : Z -> F.
Notation all := (Forall (proper F)).
Notation resolve_spec := (resolve_spec F parse_f64 env).
Notation is_value := (is_value F parse_f64 k json_text).
Notation j_spec := (j_spec F parse_f64 k json_text).
Notation json_spec := (json_spec F parse_f64 k json_text).
Notation j_metadata := (j_metadata F parse_f64 k json_text).
Notation j_blueprint_metadata := (j_blueprint_metadata F parse_f64 k json_text).
Notation j_vars := (j_vars F parse_f64 of_int).

(** C123.  Reading the spec of a resource of each type from JSON succeeds exactly when the document
    declares one, with exactly what it declares; so for the rest of a blueprint. *)
Theorem C123_exact : forall ty v s, j_spec ty v = Ok s <-> json_spec ty v s.
Proof. intros ty v s. apply (spec_ok F parse_f64 k Hk json_text ty v). Qed.
Theorem C123_rest_exact : forall v,
  (forall x, j_metadata v = Ok x <-> json_metadata F parse_f64 k json_text v x) /\
  (forall r, j_selector v = Ok r <-> json_selector v r) /\
  (forall r, j_vars v = Ok r <-> is_object (json_var F parse_f64 of_int) v r) /\
  (forall o, j_blueprint_metadata v = Ok o <-> json_blueprint_metadata F parse_f64 k json_text v o).
Proof.
  intros v. split; [|split; [|split]].
  - apply (metadata_ok F parse_f64 k Hk json_text v).
  - apply (selector_ok v).
  - apply (vars_ok F parse_f64 of_int v).
  - apply (blueprint_metadata_ok F parse_f64 k Hk json_text v).
Qed.
Theorem C123_never_panics : forall v, (forall ty, j_spec ty v <> Panic) /\ j_metadata v <> Panic /\ j_selector v <> Panic /\ j_vars v <> Panic /\ j_blueprint_metadata v <> Panic.
Proof.
  intros v. split; [intros ty; apply (spec_ok F parse_f64 k Hk json_text ty v)|]. split; [apply (metadata_ok F parse_f64 k Hk json_text v)|].
  split; [apply (selector_ok v)|]. split; [apply (vars_ok F parse_f64 of_int v)|apply (blueprint_metadata_ok F parse_f64 k Hk json_text v)].
Qed.

(** The order of the members does not matter. *)
Lemma count_perm key m m' : Permutation m m' -> count_key key m = count_key key m'.
Proof. intros P. induction P; rewrite ?count_cons in *; lia. Qed.
Lemma perm_struct names m m' : Permutation m m' -> is_struct names (YMap m) -> is_struct names (YMap m').
Proof.
  intros P [(? & [= <-] & H)|(? & ? & _)]; [|discriminate]. left. exists m'. split; [reflexivity|]. intros key Hi. apply count_once. rewrite <- (count_perm key m m' P). now apply count_once, H.
Qed.
Lemma perm_has names m m' key w : Permutation m m' -> has names (YMap m) key w -> has names (YMap m') key w.
Proof. intros P [(? & [= <-] & H)|(? & ? & _)]; [|discriminate]. left. exists m'. split; [reflexivity|]. eapply Permutation_in; eassumption. Qed.
(** Two values with the same fields *)
Definition like (names : list text) (v v' : yaml) : Prop := (is_struct names v <-> is_struct names v') /\ forall key w, In key names -> (has names v key w <-> has names v' key w).
Lemma like_sym names v v' : like names v v' -> like names v' v.
Proof. intros [H1 H2]. split; [now symmetry|]. intros key w Hi. symmetry. now apply H2. Qed.
Lemma perm_like names m m' : Permutation m m' -> like names (YMap m) (YMap m').
Proof. intros P. pose proof (Permutation_sym P) as P'. split; [split; now apply perm_struct|]. intros key w _. split; now apply perm_has. Qed.
Lemma like_req {A} names v v' key (R : yaml -> A -> Prop) a : In key names -> like names v v' -> field_req names v key R a -> field_req names v' key R a.
Proof. intros Hi [_ H] (w & Hw & Ha). exists w. split; [now apply H|exact Ha]. Qed.
Lemma like_opt {A} names v v' key (R : yaml -> A -> Prop) o : In key names -> like names v v' -> field_opt names v key R o -> field_opt names v' key R o.
Proof.
  intros Hi [_ H] [(w & a & Hw & X)|[Hn ->]]; [left; exists w, a; split; [now apply H|exact X]|right; split; [|reflexivity]].
  intros w Hw. apply Hn. now apply H.
Qed.
Ltac like_tac L := repeat match goal with
  | H : _ /\ _ |- _ => destruct H
  | |- _ /\ _ => split
  | |- is_struct _ _ => apply (proj1 L); assumption
  | |- field_req _ _ _ _ _ => eapply like_req; [apply exists_in; vm_compute; reflexivity|exact L|assumption]
  | |- field_opt _ _ _ _ _ => eapply like_opt; [apply exists_in; vm_compute; reflexivity|exact L|assumption]
  end.
Lemma like_spec ty v v' s : like (spec_fields ty) v v' -> json_spec ty v s -> json_spec ty v' s.
Proof.
  intros L. destruct ty; cbn [SpecJsonSpec.json_spec]; intros (x & Hx & ->); exists x; (split; [|reflexivity]).
  all: unfold json_api, json_consumer, json_schedule, json_handler, json_shared, json_workflow, json_machine, json_config, json_bucket, json_topic, json_queue in *; cbv zeta in *; like_tac L.
Qed.
Theorem C123_member_order : forall ty m m' s, Permutation m m' -> (j_spec ty (YMap m) = Ok s <-> j_spec ty (YMap m') = Ok s).
Proof.
  intros ty m m' s P. rewrite !C123_exact. split; apply like_spec; [|apply like_sym]; now apply perm_like.
Qed.

(** What is read is readable (C116). *)
Lemma value_proper : forall v n, is_value v n -> proper F n.
Proof.
  apply (yaml_deep (fun v => forall n, is_value v n -> proper F n)). intros v IHl IHm n H. inversion H as [z|b|t f E|t n' Ht|l r Hr|m a Ha]; subst; try apply scalar_proper.
  - inversion Ht as [? ?|? u ps E Ep]; subst; [apply scalar_proper|]. intros d Ho. inversion Ho; subst. pose proof (C53_never_panics k Hk u) as P. rewrite Ep in P. now apply P.
  - assert (G : Forall (proper F) r) by (eapply forall2_right; [|exact Hr]; intros x y Hx; apply (IHl l x x eq_refl Hx (in_here x))).
    intros d Ho. inversion Ho as [|? x y ? Hy Hoy|]; subst. rewrite Forall_forall in G. exact (G _ Hy _ Hoy).
  - assert (G : Forall (fun e => proper F (snd e)) a) by (eapply forall2_right; [|exact Ha]; intros [key x] y Hx [_ Hy]; apply (IHm m key x x eq_refl Hx (in_here x)); exact Hy).
    apply map_proper. intros e He. rewrite Forall_forall in G. apply G. clear -He. induction a as [|x a IH]; [destruct He|]. cbn [last_ones] in He.
    destruct (existsb _ a); [right; now apply IH|]. destruct He as [<-|He]; [now left|right; now apply IH].
Qed.
Lemma last_in {A} (l : list (text * A)) e : In e (last_ones l) -> In e l.
Proof. induction l as [|x l IH]; cbn [last_ones]; [auto|]. destruct (existsb _ l); [right; auto|]. intros [->|H]; [now left|right; auto]. Qed.
Lemma fopt_all {A} (P : A -> Prop) n v key (R : yaml -> A -> Prop) o : (forall w a, has n v key w -> R w a -> P a) -> field_opt n v key R o -> Forall P (opt_list o).
Proof. intros H [(w & a & Hw & _ & Hr & ->)|[_ ->]]; cbn; [constructor; [eapply H; eassumption|constructor]|constructor]. Qed.
Lemma fopt_lists {A} (P : A -> Prop) n v key (R : yaml -> list A -> Prop) o : (forall w a, has n v key w -> R w a -> Forall P a) -> field_opt n v key R o -> Forall P (opt_lists o).
Proof. intros H [(w & a & Hw & _ & Hr & ->)|[_ ->]]; cbn; [eapply H; eassumption|constructor]. Qed.
Lemma fopt_flat {A} (V : A -> list (node F)) n v key (R : yaml -> A -> Prop) o : (forall w a, R w a -> all (V a)) -> field_opt n v key R o -> all (flat_map V (opt_list o)).
Proof. intros H Ho. apply flat_all. eapply fopt_all; [|exact Ho]. intros w a _. apply H. Qed.
Lemma fopt_node n v key o : field_opt n v key is_value o -> all (opt_list o).
Proof. apply fopt_all. intros w a _. apply value_proper. Qed.
Lemma object_all {A} (P : A -> Prop) (R : yaml -> A -> Prop) v r : (forall w a, inside w v -> R w a -> P a) -> is_object R v r -> Forall (fun e => P (snd e)) r.
Proof.
  intros H (m & a & -> & Ha & ->). apply Forall_forall. intros e He. apply last_in in He. revert e He. apply Forall_forall. eapply forall2_right; [|exact Ha].
  intros [key x] y Hx [_ Hy]. apply (H x); [|exact Hy]. eapply in_map; [exact Hx|constructor].
Qed.
Lemma array_all {A} (P : A -> Prop) (R : yaml -> A -> Prop) v r : (forall w a, inside w v -> R w a -> P a) -> is_array R v r -> Forall P r.
Proof. intros H (l & -> & Hr). eapply forall2_right; [|exact Hr]. intros w a Hw. apply H. eapply in_seq; [exact Hw|constructor]. Qed.
Lemma object_flat {A} (V : A -> list (node F)) (R : yaml -> A -> Prop) v r : (forall w a, R w a -> all (V a)) -> is_object R v r -> all (flat_map (fun e => V (snd e)) r).
Proof. intros H Hr. apply flat_all. exact (object_all (fun a => all (V a)) R v r (fun w a _ => H w a) Hr). Qed.
Lemma jshared_proper v x : json_shared F parse_f64 k json_text v x -> all (shared_values F x).
Proof. intros (_ & _ & _ & H1 & H2 & H3 & _). unfold shared_values. rewrite !Forall_app. split; [|split]; eapply fopt_node; eassumption. Qed.
Lemma jhandler_proper v x : json_handler F parse_f64 k json_text v x -> all (handler_values F x).
Proof. intros (_ & _ & _ & _ & _ & H1 & H2 & H3 & _). unfold handler_values. rewrite !Forall_app. split; [|split]; eapply fopt_node; eassumption. Qed.
Lemma jstream_proper id v x : json_stream F parse_f64 k json_text id v x -> all (stream_values F x).
Proof. intros (_ & _ & H1 & H2 & H3). unfold stream_values. rewrite !Forall_app. split; [|split]; eapply fopt_node; eassumption. Qed.
Lemma jevent_proper v x : json_event F parse_f64 k json_text v x -> all (event_values F x).
Proof.
  intros (_ & _ & w & _ & H). unfold event_values. inversion H as [? s Hs E|? s N Hs E|? s N N' Hs E]; subst; [constructor|eapply jstream_proper; exact Hs..].
Qed.
Lemma jconsumer_proper v x : json_consumer F parse_f64 k json_text v x -> all (consumer_values F x).
Proof.
  intros (_ & _ & H1 & H2 & H3 & H4 & _ & H5). unfold consumer_values. rewrite !Forall_app. do 4 (split; [eapply fopt_node; eassumption|]).
  eapply fopt_flat; [|exact H5]. intros w a. apply object_flat. apply jevent_proper.
Qed.
Lemma jcors_choice_proper v x : json_cors_choice F parse_f64 k json_text v x -> all (cors_choice_values F x).
Proof.
  intros [(ps & _ & ->)|(y & (_ & H1 & _ & _ & _ & _ & H2) & ->)]; cbn; [constructor|]. unfold cors_values. rewrite Forall_app. split; eapply fopt_node; eassumption.
Qed.
Lemma jbase_path_proper v x : json_base_path F parse_f64 k json_text v x -> all (base_path_values F x).
Proof. intros [(ps & _ & ->)|(y & (_ & (w & _ & H) & _) & ->)]; cbn; [constructor|]. constructor; [eapply value_proper; exact H|constructor]. Qed.
Lemma jvalue_source_proper v x : json_value_source F parse_f64 k json_text v x -> all (value_source_values F x).
Proof. intros [(ps & _ & ->)|(y & (_ & (w & _ & H) & _) & ->)]; cbn; [constructor|]. constructor; [eapply value_proper; exact H|constructor]. Qed.
Lemma jdomain_proper v x : json_domain F parse_f64 k json_text v x -> all (domain_values F x).
Proof.
  intros (_ & _ & (w & _ & H1) & H2 & _). unfold domain_values. rewrite Forall_app. split; [|eapply fopt_node; eassumption].
  apply flat_all. eapply array_all; [|exact H1]. intros u a _. apply jbase_path_proper.
Qed.
Lemma jguard_proper v x : json_guard F parse_f64 k json_text v x -> all (guard_values F x).
Proof. intros (_ & _ & _ & H & _). unfold guard_values. eapply fopt_flat; [|exact H]. apply jvalue_source_proper. Qed.
Lemma jauth_proper v x : json_auth F parse_f64 k json_text v x -> all (auth_values F x).
Proof. intros (_ & _ & w & _ & H). unfold auth_values. eapply object_flat; [|exact H]. apply jguard_proper. Qed.
Lemma japi_proper v x : json_api F parse_f64 k json_text v x -> all (api_values F x).
Proof.
  intros (_ & (w & _ & H1) & H2 & H3 & H4 & H5). unfold api_values. rewrite !Forall_app. split.
  { eapply array_all; [|exact H1]. intros u a _. apply value_proper. }
  split; [eapply fopt_flat; [|exact H2]; apply jcors_choice_proper|]. split; [eapply fopt_flat; [|exact H3]; apply jdomain_proper|].
  split; [eapply fopt_flat; [|exact H4]; apply jauth_proper|]. eapply fopt_node; eassumption.
Qed.
Lemma jcondition_proper v c : json_condition F parse_f64 k json_text v c -> all (condition_values F c).
Proof. intros (_ & (w & _ & H) & _). eapply array_all; [|exact H]. intros u a _. apply value_proper. Qed.
Lemma jrule_proper v u : json_rule F parse_f64 k json_text v u -> all (rule_values F u).
Proof.
  intros (_ & H1 & H2 & H3 & H4 & _). unfold rule_values. apply flat_all. rewrite !Forall_app. repeat split.
  - eapply fopt_lists; [|exact H1]. intros w a _. apply array_all. intros x y _. apply jcondition_proper.
  - eapply fopt_lists; [|exact H2]. intros w a _. apply array_all. intros x y _. apply jcondition_proper.
  - eapply fopt_all; [|exact H3]. intros w a _. apply jcondition_proper.
  - eapply fopt_all; [|exact H4]. intros w a _. apply jcondition_proper.
Qed.
Lemma jretry_proper v y : json_retry F parse_f64 k json_text v y -> all (retry_values F y).
Proof. intros (_ & _ & H1 & H2 & H3 & H4 & H5). unfold retry_values. rewrite !Forall_app. repeat split; eapply fopt_node; eassumption. Qed.
Lemma jstate_readable : forall v s, json_state F parse_f64 k json_text v s -> readable F s.
Proof.
  apply (yaml_deep (fun v => forall s, json_state F parse_f64 k json_text v s -> readable F s)). intros v IHl IHm s H.
  destruct H as [v s _ _ _ _ _ _ Hpt _ Hen Hds Hre Hti _ _ Hbr Hrt _]. constructor.
  - unfold state_values. rewrite !Forall_app. repeat split; try (eapply fopt_node; eassumption).
    + apply Forall_map. eapply fopt_lists; [|exact Hpt]. intros w r _. apply object_all. intros u n _. apply value_proper.
    + apply flat_all. eapply fopt_lists; [|exact Hds]. intros w r _. apply array_all. intros u n _. apply jrule_proper.
    + apply flat_all. eapply fopt_lists; [|exact Hrt]. intros w r _. apply array_all. intros u n _. apply jretry_proper.
  - intros b e Hb He.
    assert (G : Forall (fun b => Forall (fun e => readable F (snd e)) (snd b)) (opt_lists (ss_branches F s))).
    { eapply fopt_lists; [|exact Hbr]. intros w r Hw. apply array_all. intros u b' Hu (_ & _ & w' & Hw' & X). eapply object_all; [|exact X].
      intros x y Hx Hy. assert (I : inside x w) by (eapply inside_trans; [|exact Hu]; eapply inside_trans; [exact Hx|]; eapply has_inside; exact Hw').
      destruct (has_in _ _ _ _ Hw) as [(l & E & Hi)|(m & key & E & Hi)]; [exact (IHl l w x E Hi I y Hy)|exact (IHm m key w x E Hi I y Hy)]. }
    rewrite Forall_forall in G. specialize (G b Hb). rewrite Forall_forall in G. exact (G e He).
Qed.
Theorem C123_readable : forall v,
  (forall ty s, j_spec ty v = Ok s -> readable_spec F s) /\
  (forall x, j_metadata v = Ok x -> readable_metadata F x) /\
  (forall x, j_blueprint_metadata v = Ok (Some x) -> Forall (proper F) (shared_values F x)).
Proof.
  intros v. split; [|split].
  - intros ty s H. apply C123_exact in H. destruct ty; destruct H as (x & Hx & ->); (split; [cbn [spec_values]|intros w X; try discriminate X]); try (constructor; fail).
    + eapply japi_proper; eassumption.
    + eapply jconsumer_proper; eassumption.
    + eapply jhandler_proper; eassumption.
    + eapply jshared_proper; eassumption.
    + injection X as <-. destruct Hx as (_ & _ & w & _ & Hs). intros e He.
      assert (G : Forall (fun e => readable F (snd e)) (snd x)) by (eapply object_all; [|exact Hs]; intros u y _; apply jstate_readable).
      rewrite Forall_forall in G. exact (G e He).
    + destruct Hx as (_ & _ & H). eapply fopt_node; eassumption.
    + destruct Hx as (_ & _ & H1 & H2). unfold queue_values. apply Forall_app. split; eapply fopt_node; eassumption.
  - intros x H. apply C123_rest_exact in H. destruct H as (_ & _ & H & _). unfold readable_metadata, metadata_values.
    apply flat_all. eapply fopt_all; [|exact H]. intros w a _ Hw. apply Forall_map. eapply object_all; [|exact Hw]. intros u n _. apply value_proper.
  - intros x H. apply C123_rest_exact in H. destruct H as [_ [(w & a & _ & _ & Hs & X)|[_ X]]]; [|discriminate]. injection X as ->. eapply jshared_proper; eassumption.
Qed.
(** From the document to the resolved spec. *)
Theorem C123_loaded : forall ty v r,
  (exists s, j_spec ty v = Ok s /\ resolve_spec s = Ok r) <-> (exists s, json_spec ty v s /\ spec_is F parse_f64 env s r).
Proof.
  intros ty v r. split; intros (s & Hs & Hr); exists s.
  - split; [now apply C123_exact|]. apply (proj1 (C116_exact F parse_f64 env)); [eapply C123_readable; eassumption|exact Hr].
  - apply C123_exact in Hs. split; [exact Hs|]. apply (proj1 (C116_exact F parse_f64 env)); [eapply C123_readable; eassumption|exact Hr].
Qed.

(** C124.  Mistakes in a spec.  A field that is given twice, a value that is neither an object nor
    an array, and a required field left out are reported. *)
Theorem C124_reported_partial : forall ty v s, j_spec ty v = Ok s ->
  ((exists m, v = YMap m) \/ (exists l, v = YSeq l /\ length l = length (spec_fields ty))) /\
  (forall key pre w post w' post', In key (spec_fields ty) -> v <> YMap (pre ++ (Some key, w) :: post ++ (Some key, w') :: post')) /\
  (forall key m, In (ty, key) [(THandler, chars "handler"); (TApi, chars "protocols"); (TSchedule, chars "schedule"); (TWorkflow, chars "startAt"); (TWorkflow, chars "states")] ->
     v = YMap m -> In key (keys_of m)).
Proof.
  intros ty v s H. apply C123_exact in H.
  assert (S : is_struct (spec_fields ty) v) by (destruct ty; destruct H as (x & Hx & _); exact (proj1 Hx)).
  split; [|split].
  - destruct S as [(m & -> & _)|(l & -> & E)]; [left; eauto|right; eauto].
  - intros key pre w post w' post' Hi ->. destruct S as [(? & [= <-] & S)|(? & ? & _)]; [|discriminate].
    apply (S key Hi pre w (post ++ (Some key, w') :: post') eq_refl). apply keys_in. exists w'. apply in_or_app. right. apply in_or_app. right. now left.
  - intros key m Hi ->.
    assert (G : forall A n (R : yaml -> A -> Prop) a, field_req n (YMap m) key R a -> In key (keys_of m)).
    { intros A n R a (w & [(? & [= <-] & Hw)|(? & ? & _)] & _); [|discriminate]. apply keys_in. eauto. }
    destruct Hi as [E|[E|[E|[E|[E|[]]]]]]; injection E as <- <-; destruct H as (x & Hx & _); eapply G.
    + exact (proj1 (proj2 (proj2 (proj2 Hx)))).
    + exact (proj1 (proj2 Hx)).
    + exact (proj2 Hx).
    + exact (proj1 (proj2 Hx)).
    + exact (proj2 (proj2 Hx)).
Qed.
Ltac gv := repeat match goal with |- _ /\ _ => split end; match goal with G : forall _ _ _ _ _, _ -> _ |- _ => eapply G; eassumption end.
(** So inside: the parts of an API, of a consumer and of a workflow, the metadata of a resource, a
    selector and a variable have these members when they are objects. *)
Theorem C124_required_partial : forall m,
  let given key := In (chars key) (keys_of m) in
  (forall x, j_domain F parse_f64 k json_text (YMap m) = Ok x -> given "domainName"%string /\ given "basePaths"%string /\ given "certificateId"%string) /\
  (forall x, j_auth F parse_f64 k json_text (YMap m) = Ok x -> given "guards"%string) /\
  (forall x, j_guard F parse_f64 k json_text (YMap m) = Ok x -> given "type"%string) /\
  (forall x, j_base F parse_f64 k json_text (YMap m) = Ok x -> given "protocol"%string /\ given "basePath"%string) /\
  (forall x, j_source F parse_f64 k json_text (YMap m) = Ok x -> given "protocol"%string /\ given "source"%string) /\
  (forall x, j_event F parse_f64 k json_text (YMap m) = Ok x -> given "sourceType"%string /\ given "sourceConfiguration"%string) /\
  (forall x, j_state F parse_f64 k json_text (YMap m) = Ok x -> given "type"%string) /\
  (forall x, j_rule F parse_f64 k json_text (YMap m) = Ok x -> given "next"%string) /\
  (forall x, j_condition F parse_f64 k json_text (YMap m) = Ok x -> given "inputs"%string /\ given "function"%string) /\
  (forall x, j_retry F parse_f64 k json_text (YMap m) = Ok x -> given "matchErrors"%string) /\
  (forall x, j_catch k (YMap m) = Ok x -> given "matchErrors"%string /\ given "next"%string) /\
  (forall x, j_metadata (YMap m) = Ok x -> given "displayName"%string) /\
  (forall x, j_selector (YMap m) = Ok x -> given "byLabel"%string) /\
  (forall x, j_var F parse_f64 of_int (YMap m) = Ok x -> given "type"%string).
Proof.
  intros m given.
  assert (G : forall A n key (R : yaml -> A -> Prop) a, field_req n (YMap m) (chars key) R a -> given key).
  { intros A n key R a (w & [(? & [= <-] & Hw)|(? & ? & _)] & _); [|discriminate]. apply keys_in. eauto. }
  split; [intros x H|split; [intros x H|split; [intros x H|split; [intros x H|split; [intros x H|split; [intros x H|split; [intros x H|split; [intros x H|split; [intros x H|split; [intros x H|split; [intros x H|split; [intros x H|split; [intros x H|intros x H]]]]]]]]]]]]].
  - apply (domain_ok F parse_f64 k Hk json_text) in H. destruct H as (_ & H1 & H2 & _ & H3 & _). gv.
  - apply (auth_ok F parse_f64 k Hk json_text) in H. destruct H as (_ & _ & H1). gv.
  - apply (guard_ok F parse_f64 k Hk json_text) in H. destruct H as (_ & H1 & _). gv.
  - apply (base_ok F parse_f64 k Hk json_text) in H. destruct H as (_ & H1 & H2). gv.
  - apply (source_ok F parse_f64 k Hk json_text) in H. destruct H as (_ & H1 & H2). gv.
  - apply (event_ok F parse_f64 k Hk json_text) in H. destruct H as (_ & H1 & H2). gv.
  - apply (state_ok F parse_f64 k Hk json_text) in H. destruct H as [v s _ H1]. gv.
  - apply (rule_ok F parse_f64 k Hk json_text) in H. destruct H as (_ & _ & _ & _ & _ & H1). gv.
  - apply (condition_ok F parse_f64 k Hk json_text) in H. destruct H as (_ & H1 & H2). gv.
  - apply (retry_ok F parse_f64 k Hk json_text) in H. destruct H as (_ & H1 & _). gv.
  - apply (catch_ok F parse_f64 k Hk) in H. destruct H as (_ & H1 & H2 & _). gv.
  - apply C123_rest_exact in H. destruct H as (_ & H1 & _). gv.
  - apply C123_rest_exact in H. destruct H as (_ & H1). gv.
  - apply (var_ok F parse_f64 of_int) in H. destruct H as (_ & H1 & _). gv.
Qed.
(** A member that is not one of the fields of the spec - a misspelt one - makes no difference; in a
    workflow neither, nor in a state of one. *)
Lemma drop_keys key pre post (v : yaml) : forall key', key' <> key -> count_key key' (pre ++ (Some key, v) :: post) = count_key key' (pre ++ post).
Proof.
  intros key' D. rewrite !count_app, count_cons. cbn [fst]. destruct (text_eqb_spec key key') as [E|_]; [now elim D|]. lia.
Qed.
Lemma drop_like names key pre post v : ~ In key names -> like names (YMap (pre ++ (Some key, v) :: post)) (YMap (pre ++ post)).
Proof.
  intros Hn. split.
  - split; (intros [(? & [= <-] & H)|(? & ? & _)]; [|discriminate]); left; eexists; (split; [reflexivity|]); intros key' Hi; apply count_once.
    + rewrite <- (drop_keys key pre post v key'); [now apply count_once, H|]. now intros ->.
    + rewrite (drop_keys key pre post v key'); [now apply count_once, H|]. now intros ->.
  - intros key' w Hi. split; (intros [(? & [= <-] & H)|(? & ? & _)]; [|discriminate]); left; eexists; (split; [reflexivity|]); apply in_app_or in H; apply in_or_app.
    + destruct H as [H|[H|H]]; [now left| |now right]. injection H as -> _. contradiction.
    + destruct H as [H|H]; [now left|right; now right].
Qed.
Theorem C124_misspelt_refuted :
  (forall ty pre post key v s, ~ In key (spec_fields ty) ->
     (j_spec ty (YMap (pre ++ (Some key, v) :: post)) = Ok s <-> j_spec ty (YMap (pre ++ post)) = Ok s)) /\
  (forall pre post key v s, ~ In key state_keys ->
     (j_state F parse_f64 k json_text (YMap (pre ++ (Some key, v) :: post)) = Ok s <-> j_state F parse_f64 k json_text (YMap (pre ++ post)) = Ok s)).
Proof.
  split.
  - intros ty pre post key v s Hn. rewrite !C123_exact. pose proof (drop_like _ _ pre post v Hn) as L. split; apply like_spec; [exact L|now apply like_sym].
  - intros pre post key v s Hn.
    assert (G : forall x y, like state_keys x y -> json_state F parse_f64 k json_text x s -> json_state F parse_f64 k json_text y s).
    { intros x y L H. destruct H. constructor; like_tac L. }
    pose proof (drop_like _ _ pre post v Hn) as L. split; intros H; apply (state_ok F parse_f64 k Hk json_text); apply (state_ok F parse_f64 k Hk json_text) in H; (eapply G; [|exact H]); [exact L|now apply like_sym].
Qed.
(** A spec may be an array of the values of its fields, in the order of the struct. *)
Lemma combine_has (names : list text) (l : list yaml) key w : In (Some key, w) (combine (map Some names) l) <-> In (key, w) (combine names l).
Proof.
  revert l. induction names as [|a names IH]; intros [|x l]; cbn; try tauto. rewrite IH. split; (intros [E|H]; [left; congruence|now right]).
Qed.
Lemma combine_keys (names : list text) : forall l, length l = length names -> keys_of (combine (map Some names) l) = names.
Proof. induction names as [|a names IH]; intros [|x l] E; try discriminate; [reflexivity|]. cbn. f_equal. apply IH. now injection E. Qed.
Theorem C124_array_refuted : forall ty l s, length l = length (spec_fields ty) ->
  (j_spec ty (YSeq l) = Ok s <-> j_spec ty (YMap (combine (map Some (spec_fields ty)) l)) = Ok s).
Proof.
  intros ty l s E.
  assert (L : like (spec_fields ty) (YSeq l) (YMap (combine (map Some (spec_fields ty)) l))).
  { split.
    - split; intros _; [left|right; eauto]. eexists. split; [reflexivity|]. intros key Hi pre v post Ep Hin.
      assert (N : NoDup (keys_of (combine (map Some (spec_fields ty)) l))) by (rewrite (combine_keys _ _ E); apply nodupb_ok; now destruct ty).
      rewrite Ep, keys_app in N. cbn [keys_of flat_map fst app] in N. apply NoDup_remove_2 in N. rewrite keys_app in Hin. exact (N Hin).
    - intros key w _. split.
      + intros [(? & ? & _)|(? & [= <-] & H)]; [discriminate|]. left. eexists. split; [reflexivity|]. now apply combine_has.
      + intros [(? & [= <-] & H)|(? & ? & _)]; [|discriminate]. right. eexists. split; [reflexivity|]. now apply combine_has. }
  rewrite !C123_exact. split; apply like_spec; [exact L|now apply like_sym].
Qed.
(** Of two guards, states, environment variables, labels, events or variables with the same name, the
    first is dropped without a word. *)
Lemma last_drop {A} (a b c : list (text * A)) name x y : last_ones (a ++ (name, x) :: b ++ (name, y) :: c) = last_ones (a ++ b ++ (name, y) :: c).
Proof.
  induction a as [|e a IH]; cbn [app last_ones].
  - rewrite existsb_app. cbn [existsb fst]. rewrite (proj2 (teq name name) eq_refl). cbn [orb]. rewrite orb_true_r. reflexivity.
  - rewrite IH. assert (E : existsb (fun e' => text_eqb (fst e') (fst e)) (a ++ (name, x) :: b ++ (name, y) :: c) = existsb (fun e' => text_eqb (fst e') (fst e)) (a ++ b ++ (name, y) :: c)).
    { rewrite !existsb_app. cbn [existsb fst]. rewrite !existsb_app. cbn [existsb fst].
      destruct (existsb _ a), (text_eqb name (fst e)), (existsb _ b), (existsb _ c); reflexivity. }
    now rewrite E.
Qed.
Lemma object_drop {A} (R : yaml -> A -> Prop) a b c name v w r :
  is_object R (YMap (a ++ (Some name, v) :: b ++ (Some name, w) :: c)) r <-> (exists x, R v x) /\ is_object R (YMap (a ++ b ++ (Some name, w) :: c)) r.
Proof.
  unfold is_object. split.
  - intros (m & l & [= <-] & H & ->). apply Forall2_app_inv_l in H. destruct H as (la & l1 & Ha & H & ->). inversion H as [|? [n x] ? l2 [E Hx] H2]; subst. cbn in E, Hx. injection E as <-.
    apply Forall2_app_inv_l in H2. destruct H2 as (lb & l3 & Hb & H3 & ->). inversion H3 as [|? [n y] ? lc [E Hy] Hc]; subst. cbn in E, Hy. injection E as <-.
    split; [eauto|]. eexists; exists (la ++ lb ++ (name, y) :: lc). split; [reflexivity|]. split; [|apply last_drop].
    apply Forall2_app; [exact Ha|]. apply Forall2_app; [exact Hb|]. constructor; [split; [reflexivity|exact Hy]|exact Hc].
  - intros ((x & Hx) & m & l & [= <-] & H & ->). apply Forall2_app_inv_l in H. destruct H as (la & l1 & Ha & H & ->). apply Forall2_app_inv_l in H. destruct H as (lb & l3 & Hb & H3 & ->).
    inversion H3 as [|? [n y] ? lc [E Hy] Hc]; subst. cbn in E, Hy. injection E as <-.
    eexists; exists (la ++ (name, x) :: lb ++ (name, y) :: lc). split; [reflexivity|]. split; [|symmetry; apply last_drop].
    apply Forall2_app; [exact Ha|]. constructor; [split; [reflexivity|exact Hx]|]. apply Forall2_app; [exact Hb|]. constructor; [split; [reflexivity|exact Hy]|exact Hc].
Qed.
Theorem C124_repeated_refuted : forall a b c name v w,
  let twice := YMap (a ++ (Some name, v) :: b ++ (Some name, w) :: c) in let once := YMap (a ++ b ++ (Some name, w) :: c) in
  (forall r, j_map (j_guard F parse_f64 k json_text) twice = Ok r <-> (exists x, j_guard F parse_f64 k json_text v = Ok x) /\ j_map (j_guard F parse_f64 k json_text) once = Ok r) /\
  (forall r, j_map (j_state F parse_f64 k json_text) twice = Ok r <-> (exists x, j_state F parse_f64 k json_text v = Ok x) /\ j_map (j_state F parse_f64 k json_text) once = Ok r) /\
  (forall r, j_map (j_text k) twice = Ok r <-> (exists x, j_text k v = Ok x) /\ j_map (j_text k) once = Ok r) /\
  (forall r, j_map j_string twice = Ok r <-> (exists x, j_string v = Ok x) /\ j_map j_string once = Ok r) /\
  (forall r, j_vars twice = Ok r <-> (exists x, j_var F parse_f64 of_int v = Ok x) /\ j_vars once = Ok r).
Proof.
  intros a b c name v w. cbv zeta.
  assert (G : forall A (f : yaml -> outcome yerr A) (R : yaml -> A -> Prop), (forall u, good f R u) -> forall r,
    j_map f (YMap (a ++ (Some name, v) :: b ++ (Some name, w) :: c)) = Ok r <-> (exists x, f v = Ok x) /\ j_map f (YMap (a ++ b ++ (Some name, w) :: c)) = Ok r).
  { intros A f R H r. rewrite (proj2 (map_ok f R (YMap (a ++ (Some name, v) :: b ++ (Some name, w) :: c)) (fun _ _ u _ _ => H u)) r).
    rewrite (proj2 (map_ok f R (YMap (a ++ b ++ (Some name, w) :: c)) (fun _ _ u _ _ => H u)) r), object_drop.
    split; intros [(x & Hx) Y]; (split; [exists x; now apply (H v)|exact Y]). }
  split; [|split; [|split; [|split]]].
  - exact (G _ _ _ (guard_ok F parse_f64 k Hk json_text)).
  - exact (G _ _ _ (state_ok F parse_f64 k Hk json_text)).
  - exact (G _ _ _ (jtext_ok F parse_f64 k Hk)).
  - exact (G _ _ _ string_ok).
  - exact (G _ _ _ (var_ok F parse_f64 of_int)).
Qed.

(** C125.  A reference in a whole number or a truth value of a spec: never accepted.  The text is
    taken as it is, and a text is neither. *)
Theorem C125_references_refuted : forall ty key m s t, In (ty, key) number_fields -> In (Some key, YStr t) m -> json_text t = None ->
  j_spec ty (YMap m) = Ok s -> forall r, resolve_spec s <> Ok r.
Proof.
  intros ty key m s t Hin Hi Ht Hs r Hr. pose proof (proj1 (C123_readable (YMap m)) ty s Hs) as Rd. apply (proj1 (C116_exact F parse_f64 env)) in Hr; [|exact Rd].
  apply C123_exact in Hs.
  assert (G : forall key, In (Some key, YStr t) m -> forall n o X (c : X -> scalar F) b, (forall x, c x <> SStr F t) -> is_struct n (YMap m) -> known n key = true -> field_opt n (YMap m) key is_value o ->
              both (fun n z => scalar_is F parse_f64 env n (c z)) o b -> False).
  { intros key' Hi' n o X c b Hc S K Hf Hb. assert (H1 : has n (YMap m) key' (YStr t)) by (left; eauto).
    destruct Hf as [(w & a & Hw & _ & Ha & ->)|[Hn _]]; [|specialize (Hn _ H1); discriminate]. rewrite (has_once _ _ _ _ _ S K Hw H1) in Ha.
    inversion Ha as [| | |? n' Hn|l r0 Hr0|mm aa Haa]; subst. inversion Hn as [? ?|? u ps E]; subst; [|congruence]. inversion Hb as [|? z Hz]; subst. clear -Hz Hc. destruct Hz as [E|(ps & E & _)]; [|discriminate]. apply (Hc z). now injection E. }
  assert (CI : forall z, SInt F z <> SStr F t) by discriminate. assert (CB : forall z, SBool F z <> SStr F t) by discriminate.
  unfold number_fields in Hin. cbn [In] in Hin.
  repeat match type of Hin with _ \/ _ => destruct Hin as [Hin|Hin] end; [injection Hin as <- <-..|destruct Hin]; destruct Hs as (x & Hx & ->); inversion Hr as [? ? H|? ? H|? ? H|? ? H|? ? H|? ? H|? ? H|? ? H|? ? H|? ? H]; subst;
    cbv beta delta [json_handler json_shared json_consumer json_api json_topic json_queue] zeta in Hx;
    cbv beta delta [handler_is shared_is consumer_is api_is topic_is queue_is] in H;
    repeat match goal with X : _ /\ _ |- _ => destruct X end;
    match goal with
    | Hi : In (Some ?kk, YStr t) m, S : is_struct ?n (YMap m), Hf : field_opt ?n (YMap m) ?kk ?R ?o, Hb : both (int_is _ _ _) ?o ?b |- _ => exact (G kk Hi n o Z (SInt F) b CI S eq_refl Hf Hb)
    | Hi : In (Some ?kk, YStr t) m, S : is_struct ?n (YMap m), Hf : field_opt ?n (YMap m) ?kk ?R ?o, Hb : both (bool_is _ _ _) ?o ?b |- _ => exact (G kk Hi n o bool (SBool F) b CB S eq_refl Hf Hb)
    end.
Qed.
(** So in free-form values - a result, a payload template, an input of a condition, an annotation:
    what looks like a reference is the value. *)
Theorem C125_literal_refuted : forall t, json_text t = None -> exists n, j_node F parse_f64 k json_text (YStr t) = Ok n /\
  resolve_node F parse_f64 env 0 n = Ok (RScalar F (SStr F t)) /\ node_to_scalar F parse_f64 env n = Ok (SStr F t).
Proof.
  intros t Ht. exists (NScalar F (SStr F t)). cbn [j_node]. unfold json_string_node. rewrite Ht. repeat split.
Qed.
(** References work in texts, and in a value whose text is itself a quoted JSON string. *)
Theorem C125_texts_partial : forall t ps, parse_substitutions k t = Ok ps ->
  j_spec TSchedule (YMap [(Some (chars "schedule"), YStr t)]) = Ok (PSchedule F ps) /\
  (forall r, parts_text env ps r -> resolve_spec (PSchedule F ps) = Ok (RSchedule F r)) /\
  (forall q, json_text q = Some t -> j_node F parse_f64 k json_text (YStr q) = Ok (NSub F ps)).
Proof.
  intros t ps Ht. split; [|split].
  - apply C123_exact. exists ps. split; [|reflexivity]. split.
    + left. eexists. split; [reflexivity|]. intros key _ pre v post E. destruct pre as [|e pre]; [|destruct pre; discriminate]. injection E as _ _ <-. intros [].
    + exists (YStr t). split; [left; eexists; split; [reflexivity|now left]|]. exists t. auto.
  - intros r Hr. cbn [SpecResolveModel.resolve_spec]. apply str_ok in Hr. now rewrite Hr.
  - intros q Hq. cbn [j_node]. unfold json_string_node. now rewrite Hq, Ht.
Qed.

(** C126.  The configuration of an event source need not be the one its type asks for: any
    configuration goes with any type. *)
Lemma two_ok key1 key2 v1 v2 : key1 <> key2 -> is_struct [key1; key2] (YMap [(Some key1, v1); (Some key2, v2)]).
Proof.
  intros D. left. eexists. split; [reflexivity|]. intros key _ pre v post E.
  destruct pre as [|e1 [|e2 [|? ?]]]; try discriminate; injection E as; subst; cbn; intros [X|X]; try contradiction; subst; now elim D.
Qed.
Theorem C126_any_type_refuted : forall t ty c s, In (t, ty) event_names -> json_event_source F parse_f64 k json_text c s ->
  j_event F parse_f64 k json_text (YMap [(Some (chars "sourceType"), YStr t); (Some (chars "sourceConfiguration"), c)]) = Ok (ty, s) /\
  (forall rs, event_source_is F parse_f64 env s rs -> all (event_values F (ty, s)) -> resolve_event F parse_f64 env (ty, s) = Ok (ty, rs)).
Proof.
  intros t ty c s Ht Hs. split.
  - apply (event_ok F parse_f64 k Hk json_text). split; [apply two_ok; discriminate|]. split.
    + exists (YStr t). split; [left; eexists; split; [reflexivity|now left]|]. exists t. split; [exact Ht|now left].
    + exists c. split; [left; eexists; split; [reflexivity|right; now left]|exact Hs].
  - intros rs Hr Hp. apply event_rok; [exact Hp|]. split; [reflexivity|exact Hr].
Qed.
(** Which kind it is, is told from its members alone: it has those of the kind, and a stream that
    has no member of the kinds tried before is read as what it is. *)
Theorem C126_by_members_partial :
  (forall m s, j_event_source F parse_f64 k json_text (YMap m) = Ok s ->
     match s with
     | FromStorage _ x => (exists t, In (Some (chars "bucket"), YStr t) m /\ parse_substitutions k t = Ok (os_bucket x)) /\ (exists l, In (Some (chars "events"), YSeq l) m)
     | FromDatabase _ x => exists t, In (Some (chars "dbStreamId"), YStr t) m /\ parse_substitutions k t = Ok (st_id F x)
     | FromData _ x => exists t, In (Some (chars "dataStreamId"), YStr t) m /\ parse_substitutions k t = Ok (st_id F x)
     end) /\
  (forall m x, ~ In (chars "bucket") (keys_of m) ->
     (json_stream F parse_f64 k json_text (chars "dbStreamId") (YMap m) x -> j_event_source F parse_f64 k json_text (YMap m) = Ok (FromDatabase F x)) /\
     (~ In (chars "dbStreamId") (keys_of m) -> json_stream F parse_f64 k json_text (chars "dataStreamId") (YMap m) x ->
        j_event_source F parse_f64 k json_text (YMap m) = Ok (FromData F x))).
Proof.
  assert (G : forall n m key A (R : yaml -> A -> Prop) a, field_req n (YMap m) key R a -> exists w, In (Some key, w) m /\ R w a).
  { intros n m key A R a (w & [(? & [= <-] & Hw)|(? & ? & _)] & Ha); [eauto|discriminate]. }
  split.
  - intros m s H. apply (event_source_ok F parse_f64 k Hk json_text) in H. inversion H as [? x Hx|? x N Hx|? x N N' Hx]; subst.
    + destruct Hx as (_ & H1 & H2). apply G in H1, H2. destruct H1 as (w & Hw & t & -> & Ht), H2 as (w' & Hw' & l & -> & _). split; eauto.
    + destruct Hx as (_ & H1 & _). apply G in H1. destruct H1 as (w & Hw & t & -> & Ht). eauto.
    + destruct Hx as (_ & H1 & _). apply G in H1. destruct H1 as (w & Hw & t & -> & Ht). eauto.
  - intros m x Hb. assert (NS : forall y, ~ json_storage k (YMap m) y).
    { intros y (_ & H1 & _). apply G in H1. destruct H1 as (w & Hw & _). apply Hb, keys_in. eauto. }
    split; [intros Hx|intros Hd Hx]; apply (event_source_ok F parse_f64 k Hk json_text); constructor; try assumption.
    intros y (_ & H1 & _). apply G in H1. destruct H1 as (w & Hw & _). apply Hd, keys_in. eauto.
Qed.
End Params.

(** * Documents that meet the hypotheses *)
Definition no_json (_ : text) : option text := None.
Notation js := (j_spec Z tenths ascii_classes no_json).
Definition flow_doc : yaml := YMap
  [(K "states", YMap
     [(K "Both", YMap [(K "type", T "parallel"); (K "end", YBool true);
        (K "parallelBranches", YSeq [YMap [(K "startAt", T "Fetch"); (K "states", YMap [(K "Fetch", YMap
          [(K "type", T "executeStep"); (K "timeout", YInt 30); (K "catch", YSeq [YMap [(K "matchErrors", YSeq [T "*"]); (K "next", T "Done")]])])])]])])]);
   (K "startAt", T "Both")].
Definition mismatch_doc : yaml :=
  YMap [(K "sourceType", T "dataStream"); (K "sourceConfiguration", YMap [(K "bucket", T "b"); (K "events", YSeq [T "created"])])].
Example C123_nonvacuous :
  (exists s, js TApi (YMap (filter (fun e => match fst e with Some key => negb (text_eqb key (chars "auth")) | None => true end) api_doc)) = Ok s) /\
  (exists x, js THandler (YMap handler_doc) = Ok (PHandler Z x) /\ ha_handler Z x = [Lit (chars "orders.create")] /\
     ha_env Z x = Some [(chars "A", [Lit (chars "1")]); (chars "B", [Ref (chars "b")])]) /\
  (exists w, js TWorkflow flow_doc = Ok (PWorkflow Z w) /\ fst w = [Lit (chars "Both")]) /\
  (exists x, js TConsumer (YMap consumer_doc) = Ok (PConsumer Z x) /\ co_batch Z x = Some (NScalar Z (SStr Z (chars "${variables.size}")))).
Proof.
  split; [eexists; vm_compute; reflexivity|]. split; [eexists; split; [vm_compute; reflexivity|split; vm_compute; reflexivity]|].
  split; [eexists; split; [vm_compute; reflexivity|vm_compute; reflexivity]|]. eexists; split; [vm_compute; reflexivity|vm_compute; reflexivity].
Qed.
Example C124_nonvacuous :
  (exists e, js THandler (YMap [(K "handlerName", T "a")]) = Err e) /\
  (exists e, js THandler (YMap [(K "handler", T "a"); (K "handler", T "b")]) = Err e) /\
  ~ In (chars "time-out") (spec_fields THandler) /\ js THandler (YMap [(K "handler", T "a"); (K "time-out", YInt 5)]) = js THandler (YMap [(K "handler", T "a")]) /\
  (exists s, js THandler (YMap [(K "handler", T "a")]) = Ok s) /\
  (exists s, js TTopic (YSeq [T "a"; YBool true]) = Ok s) /\
  (exists x, js THandler (YMap [(K "handler", T "a"); (K "environmentVariables", YMap [(K "A", T "1"); (K "A", T "2")])]) = Ok (PHandler Z x) /\ ha_env Z x = Some [(chars "A", [Lit (chars "2")])]).
Proof.
  split; [eexists; vm_compute; reflexivity|]. split; [eexists; vm_compute; reflexivity|].
  split; [intros H; apply exists_in in H; vm_compute in H; discriminate|]. split; [vm_compute; reflexivity|].
  split; [eexists; vm_compute; reflexivity|]. split; [eexists; vm_compute; reflexivity|]. eexists; split; [vm_compute; reflexivity|vm_compute; reflexivity].
Qed.
Example C125_nonvacuous :
  (exists s, js TConsumer (YMap consumer_doc) = Ok s /\ resolve_spec Z tenths values_for s = Err MustBeInt) /\
  In (TConsumer, chars "batchSize") number_fields /\ In (Some (chars "batchSize"), T "${variables.size}") consumer_doc /\ no_json (chars "${variables.size}") = None /\
  parse_substitutions ascii_classes (chars "rate(${variables.size} minutes)") = Ok [Lit (chars "rate("); Ref (chars "size"); Lit (chars " minutes)")].
Proof.
  split; [eexists; split; [vm_compute; reflexivity|vm_compute; reflexivity]|]. split; [apply in_or_app with (l := firstn 6 number_fields); right; now left|]. split; [now left|]. split; [reflexivity|vm_compute; reflexivity].
Qed.
Example C126_nonvacuous :
  (exists s, j_event Z tenths ascii_classes no_json mismatch_doc = Ok (DataStream, FromStorage Z s) /\
     resolve_event Z tenths values_for (DataStream, FromStorage Z s) = Ok (DataStream, RFromStorage {| ros_bucket := chars "b"; ros_events := [ObjectCreated] |})) /\
  In (chars "dataStream", DataStream) event_names /\
  (exists s, json_event_source Z tenths ascii_classes no_json (YMap [(K "dbStreamId", T "s"); (K "dataStreamId", T "u")]) (FromDatabase Z s)).
Proof.
  split; [eexists; split; [vm_compute; reflexivity|vm_compute; reflexivity]|]. split; [right; right; now left|].
  eexists. apply (event_source_ok Z tenths ascii_classes ascii_sane no_json). vm_compute. reflexivity.
Qed.

Print Assumptions C123_exact.
Print Assumptions C123_rest_exact.
Print Assumptions C123_never_panics.
Print Assumptions C123_member_order.
Print Assumptions C123_readable.
Print Assumptions C123_loaded.
Print Assumptions C124_reported_partial.
Print Assumptions C124_required_partial.
Print Assumptions C124_misspelt_refuted.
Print Assumptions C124_array_refuted.
Print Assumptions C124_repeated_refuted.
Print Assumptions C125_references_refuted.
Print Assumptions C125_literal_refuted.
Print Assumptions C125_texts_partial.
Print Assumptions C126_any_type_refuted.
Print Assumptions C126_by_members_partial.
