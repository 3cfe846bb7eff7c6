(** C116 to C119: resolving the references of the specs and the metadata of resources. *)
From Verif Require Import Base Chars SubstModel SubstProofs SubstProps ResolveModel ResolveSpec ResolveProofs BlueprintModel WfYamlModel WfYamlSpec WfYamlProofs WfYamlProps
  WfResolveModel WfResolveSpec WfResolveProofs WfResolveProps SpecYamlModel SpecYamlSpec SpecYamlProofs SpecYamlProps SpecResolveModel SpecResolveSpec SpecResolveProofs.
Local Open Scope list_scope.

Section Params.
Variable F : Type.
Variable parse_f64 : text -> option F.
Variable env : text -> option text.
Variable k : classes.
Hypothesis Hk : sane k.
Notation all := (Forall (proper F)).
Notation resolve_spec := (resolve_spec F parse_f64 env).
Notation resolve_metadata := (resolve_metadata F parse_f64 env).
Notation y_spec := (y_spec F parse_f64 k).

(** * What is read from YAML is readable *)
Lemma flat_opt {A} (V : A -> list (node F)) m key (R : yaml -> A -> Prop) o : (forall v a, R v a -> all (V a)) -> optional m key R o -> all (flat_map V (opt_list o)).
Proof. intros H [(v & a & _ & Hr & ->)|[_ ->]]; cbn; [rewrite app_nil_r; eapply H; eassumption|constructor]. Qed.
Lemma flat_len {A} (V : A -> list (node F)) m key ok (R : yaml -> A -> Prop) o : (forall v a, R v a -> all (V a)) -> lenient m key ok R o -> all (flat_map V (opt_list o)).
Proof. intros H [(v & a & _ & _ & Hr & ->)|[_ ->]]; cbn; [rewrite app_nil_r; eapply H; eassumption|constructor]. Qed.
Lemma opt_ints m key o : optional m key (is_int F k) o -> all (opt_list o).
Proof. intros [(v & a & _ & Hr & ->)|[_ ->]]; cbn; [constructor; [eapply int_proper; eassumption|constructor]|constructor]. Qed.
Lemma opt_bools m key o : optional m key (is_bool F k) o -> all (opt_list o).
Proof. intros [(v & a & _ & Hr & ->)|[_ ->]]; cbn; [constructor; [eapply bool_proper; eassumption|constructor]|constructor]. Qed.
Lemma def_bools m key o : defaults m key (fun v o => exists a, is_bool F k v a /\ o = Some a) (Some (NScalar F (SBool F false))) o -> all (opt_list o).
Proof. intros [(v & _ & a & Hr & ->)|[_ ->]]; cbn; (constructor; [|constructor]); [eapply bool_proper; eassumption|apply scalar_proper]. Qed.
Lemma null_proper : proper F (NNull F).
Proof. intros d Ho. inversion Ho. Qed.
Lemma plain_protocol_proper v n : is_plain_protocol F v n -> proper F n.
Proof. intros (t & _ & _ & ->). apply scalar_proper. Qed.
Lemma def_protocol m key n : defaults m key (is_plain_protocol F) (NNull F) n -> all [n].
Proof. intros [(v & _ & Hr)|[_ ->]]; (constructor; [|constructor]); [eapply plain_protocol_proper; eassumption|apply null_proper]. Qed.
Lemma map_proper m : (forall e, In e m -> proper F (snd e)) -> proper F (NMap F m).
Proof. intros H d Ho. inversion Ho as [| |d' x y key m' Hy Hoy]; subst. exact (H _ Hy d' Hoy). Qed.
Lemma text_proper v ps : is_text k v ps -> proper F (NSub F ps).
Proof.
  intros (t & -> & Ht) d Ho. inversion Ho; subst. pose proof (C53_never_panics k Hk t) as P. rewrite Ht in P. now apply P.
Qed.
Lemma protocol_proper v n : is_protocol F k v n -> proper F n.
Proof.
  intros [H|(m & w & -> & (v' & _ & m' & -> & r & -> & Hr) & ->)]; [eapply plain_protocol_proper; eassumption|].
  apply map_proper. intros e [<-|[]]. cbn. apply map_proper. intros e He.
  revert He. clear - Hr Hk. revert Hr. generalize (filter (fun e : text * yaml => text_eqb (fst e) (chars "routeKey") || text_eqb (fst e) (chars "authStrategy")) (entries_of m')). intros l Hr.
  induction Hr as [|a b l r (_ & ps & Hp & E) Hl IH]; intros He; [destruct He|]. destruct He as [<-|He]; [|now apply IH]. rewrite E. eapply text_proper; eassumption.
Qed.
Lemma shared_proper m x : is_shared F k m x -> all (shared_values F x).
Proof. intros (_ & _ & H1 & H2 & H3 & _). unfold shared_values. rewrite !Forall_app. split; [|split]; [eapply opt_ints|eapply opt_ints|eapply opt_bools]; eassumption. Qed.
Lemma handler_proper m x : is_handler F k m x -> all (handler_values F x).
Proof. intros (_ & _ & _ & _ & H1 & H2 & H3 & _). unfold handler_values. rewrite !Forall_app. split; [|split]; [eapply opt_ints|eapply opt_ints|eapply opt_bools]; eassumption. Qed.
Lemma stream_proper key m x : is_stream F k key m x -> all (stream_values F x).
Proof. intros (_ & H1 & H2 & H3). unfold stream_values. rewrite !Forall_app. split; [|split]; [eapply opt_ints|eapply opt_bools|eapply opt_bools]; eassumption. Qed.
Lemma event_proper m x : is_event F k m x -> all (event_values F x).
Proof.
  intros (_ & v & _ & c & -> & H). unfold event_values. destruct x as [[| |] s]; cbn [fst snd] in *; destruct H as (x & Hx & ->); [constructor| |]; eapply stream_proper; eassumption.
Qed.
Lemma named_proper {A} (V : A -> list (node F)) (R : list (option text * yaml) -> A -> Prop) v r : (forall m a, R m a -> all (V a)) -> is_mapping (are_named R) v r ->
  all (flat_map (fun e => V (snd e)) r).
Proof.
  intros H (m & -> & Hr). unfold are_named in Hr. induction Hr as [|a b l r [_ Hab] _ IH]; cbn; [constructor|]. apply Forall_app. split; [eapply H; eassumption|exact IH].
Qed.
Lemma seq_proper {A} (V : A -> list (node F)) (R : yaml -> A -> Prop) v r : (forall v a, R v a -> all (V a)) -> is_seq R v r -> all (flat_map V r).
Proof. intros H (l & -> & Hr). induction Hr as [|a b l r Hab _ IH]; cbn; [constructor|]. apply Forall_app. split; [eapply H; eassumption|exact IH]. Qed.
Lemma consumer_proper m x : is_consumer F k m x -> all (consumer_values F x).
Proof.
  intros (_ & H1 & H2 & H3 & H4 & _ & H5). unfold consumer_values. rewrite !Forall_app. split; [eapply opt_ints; eassumption|]. split; [eapply opt_ints; eassumption|].
  split; [eapply opt_ints; eassumption|]. split; [eapply opt_bools; eassumption|]. eapply flat_opt; [|exact H5]. intros v a. apply named_proper. intros m' a'. apply event_proper.
Qed.
Lemma cors_proper m x : is_cors F k m x -> all (cors_values F x).
Proof. intros (H1 & _ & _ & _ & _ & H2). unfold cors_values. rewrite !Forall_app. split; [eapply opt_bools|eapply opt_ints]; eassumption. Qed.
Lemma cors_choice_proper v x : is_cors_choice F k v x -> all (cors_choice_values F x).
Proof. intros [(ps & _ & ->)|(m & y & _ & H & ->)]; cbn; [constructor|eapply cors_proper; eassumption]. Qed.
Lemma base_path_proper v x : is_base_path F k v x -> all (base_path_values F x).
Proof. intros [(ps & _ & ->)|(m & y & _ & (H & _) & ->)]; cbn; [constructor|]. eapply def_protocol; eassumption. Qed.
Lemma value_source_proper v x : is_value_source F k v x -> all (value_source_values F x).
Proof. intros [(ps & _ & ->)|(m & y & _ & (H & _) & ->)]; cbn; [constructor|]. eapply def_protocol; eassumption. Qed.
Lemma domain_proper m x : is_domain F k m x -> all (domain_values F x).
Proof.
  intros (_ & H1 & H2 & _). unfold domain_values. rewrite !Forall_app. split; [|eapply opt_bools; eassumption].
  destruct H1 as [(v & _ & Hr)|[_ ->]]; [|constructor]. eapply seq_proper; [|exact Hr]. intros v' a. apply base_path_proper.
Qed.
Lemma guard_proper m x : is_guard F k m x -> all (guard_values F x).
Proof. intros (_ & _ & H & _). unfold guard_values. eapply flat_opt; [|exact H]. intros v a. apply value_source_proper. Qed.
Lemma auth_proper m x : is_auth F k m x -> all (auth_values F x).
Proof. intros ((v & _ & H) & _). unfold auth_values. eapply named_proper; [|exact H]. intros m' a. apply guard_proper. Qed.
Lemma api_proper m x : is_api F k m x -> all (api_values F x).
Proof.
  intros (H1 & H2 & H3 & H4 & H5 & _). unfold api_values. rewrite !Forall_app. split.
  { destruct H1 as [(v & _ & l & -> & Hl)|[_ ->]]; [|constructor]. eapply forall2_right; [|exact Hl]. intros a b _. apply protocol_proper. }
  split; [eapply flat_len; [|exact H2]; intros v a; apply cors_choice_proper|].
  split; [eapply flat_opt; [|exact H3]; intros v a (m' & -> & Hd); eapply domain_proper; eassumption|].
  split; [eapply flat_opt; [|exact H4]; intros v a (m' & -> & Hd); eapply auth_proper; eassumption|]. eapply opt_bools; eassumption.
Qed.
Lemma metadata_proper m x : is_metadata F parse_f64 k m x -> all (metadata_values F x).
Proof.
  intros (_ & H & _). unfold metadata_values. eapply flat_len; [|exact H]. intros v a (m' & -> & Hp). unfold is_payload in Hp. apply Forall_map.
  eapply forall2_right; [|exact Hp]. intros x' y _ [_ Hn]. eapply node_proper; [exact Hk|exact Hn].
Qed.

(** C116.  What is read from YAML is readable. *)
Theorem C116_readable : forall m, one_each (YMap m) ->
  (forall ty s, y_spec ty m = Ok s -> readable_spec F s) /\
  (forall x, y_metadata F parse_f64 k m = Ok x -> readable_metadata F x) /\
  (forall x, y_blueprint_metadata F k m = Ok (Some x) -> Forall (proper F) (shared_values F x)).
Proof.
  intros m Hm. split; [|split].
  - intros ty s H. apply C112_spec_exact in H; [|exact Hk|exact Hm].
    destruct ty; destruct H as (x & Hx & ->); (split; [cbn [spec_values]|intros w X; try discriminate X]); try (constructor; fail).
    + eapply api_proper; eassumption.
    + eapply consumer_proper; eassumption.
    + eapply handler_proper; eassumption.
    + eapply shared_proper; eassumption.
    + injection X as <-. apply (WfYamlProofs.workflow_ok F parse_f64 k Hk) in Hx; [|exact Hm]. eapply C109_readable; eassumption.
    + destruct Hx as (_ & H). eapply def_bools; eassumption.
    + destruct Hx as (_ & H1 & H2). unfold queue_values. apply Forall_app. split; [eapply def_bools|eapply opt_ints]; eassumption.
  - intros x H. apply (C112_rest_exact F parse_f64 k) in H; [|exact Hm]. eapply metadata_proper; eassumption.
  - intros x H. apply (C112_rest_exact F parse_f64 k) in H; [|exact Hm].
    destruct H as [(v & a & _ & _ & (m' & -> & Hs) & X)|[_ X]]; [|discriminate]. injection X as ->. eapply shared_proper; eassumption.
Qed.
(** Resolving a spec, or metadata, succeeds exactly when every reference in it has a value of the
    type and among the names its place asks for; the result is what they stand for. *)
Theorem C116_exact :
  (forall s, readable_spec F s -> forall r, resolve_spec s = Ok r <-> spec_is F parse_f64 env s r) /\
  (forall x, readable_metadata F x -> forall r, resolve_metadata x = Ok r <-> metadata_is F parse_f64 env x r) /\
  (forall o, (forall x, o = Some x -> Forall (proper F) (shared_values F x)) ->
     forall r, resolve_blueprint_metadata F parse_f64 env o = Ok r <-> both (shared_is F parse_f64 env) o r).
Proof.
  split; [|split].
  - intros s Hs r. now apply spec_rok.
  - intros x Hx r. now apply metadata_rok.
  - intros o Ho. apply opto_ok. intros x Hx r. apply shared_rok. now apply Ho.
Qed.
Theorem C116_never_panics :
  (forall s, readable_spec F s -> resolve_spec s <> Panic) /\
  (forall x, readable_metadata F x -> resolve_metadata x <> Panic) /\
  (forall o, (forall x, o = Some x -> Forall (proper F) (shared_values F x)) -> resolve_blueprint_metadata F parse_f64 env o <> Panic).
Proof.
  split; [|split].
  - intros s Hs. now apply spec_rsafe.
  - intros x Hx. now apply metadata_rsafe.
  - intros o Ho. apply opto_safe. intros x Hx. apply shared_rsafe. now apply Ho.
Qed.
(** From the document to the resolved spec. *)
Theorem C116_loaded : forall ty m, one_each (YMap m) -> forall r,
  (exists s, y_spec ty m = Ok s /\ resolve_spec s = Ok r) <-> (exists s, is_spec F parse_f64 k ty m s /\ spec_is F parse_f64 env s r).
Proof.
  intros ty m Hm r. split; intros (s & Hs & Hr); exists s.
  - assert (R : readable_spec F s) by (eapply C116_readable; eassumption).
    split; [now apply C112_spec_exact|]. now apply (proj1 C116_exact).
  - apply C112_spec_exact in Hs; [|exact Hk|exact Hm].
    assert (R : readable_spec F s) by (eapply C116_readable; eassumption). split; [exact Hs|]. now apply (proj1 C116_exact).
Qed.

(** C117.  The choices: each place accepts exactly its names, however they are written. *)
Theorem C117_choices : forall ps t, parts_text env ps t ->
  ((exists c, resolve_policy env ps = Ok c) <-> In t (map chars ["TLS_1_0"; "TLS_1_2"]%string)) /\
  ((exists c, resolve_guard_type env ps = Ok c) <-> In t (map chars ["jwt"; "custom"]%string)) /\
  ((exists c, resolve_storage_event env ps = Ok c) <-> In t (map chars ["created"; "deleted"; "metadataUpdated"]%string)) /\
  ((exists c, resolve_protocol F parse_f64 env (NSub F ps) = Ok c) <-> In t (map chars ["http"; "websocket"]%string)) /\
  ((exists c, resolve_strategy F env (NSub F ps) = Ok c) <-> In t (map chars ["authMessage"; "connect"]%string)).
Proof.
  intros ps t Ht. apply (proj2 (str_ok env ps t)) in Ht.
  unfold resolve_policy, resolve_guard_type, resolve_storage_event. cbn [resolve_protocol resolve_strategy]. rewrite Ht. cbn [obind map].
  assert (G : forall A (c : A) (f : text -> outcome rerr A) (names : list (text * A)), (forall c, f t = Ok c <-> In (t, c) names) -> ((exists c, f t = Ok c) <-> In t (map fst names))).
  { intros A c f names H. rewrite in_map_iff. split.
    - intros (d & Hd). exists (t, d). split; [reflexivity|now apply H].
    - intros ([u d] & E & Hd). cbn in E. subst u. exists d. now apply H. }
  split; [|split; [|split; [|split]]].
  - apply (G _ Tls10 (fun t => if text_eqb t (chars "TLS_1_0") then Ok Tls10 else if text_eqb t (chars "TLS_1_2") then Ok Tls12 else Err ParseErr) policy_names).
    intros c. pose proof (policy_ok env [Lit t] c) as P. unfold resolve_policy in P. cbn [resolve_to_string resolve_part obind] in P. rewrite app_nil_r in P. rewrite P.
    unfold policy_is, choice_is. split; [intros (u & Hu & Hc)|intros Hc; exists t; split; [|exact Hc]].
    + apply (proj2 (str_ok env [Lit t] u)) in Hu. cbn in Hu. rewrite app_nil_r in Hu. injection Hu as <-. exact Hc.
    + apply str_ok. cbn. now rewrite app_nil_r.
  - apply (G _ Jwt (fun t => if text_eqb t (chars "jwt") then Ok Jwt else if text_eqb t (chars "custom") then Ok Custom else Err ParseErr) guard_names).
    intros c. pose proof (guard_type_rok env [Lit t] c) as P. unfold resolve_guard_type in P. cbn [resolve_to_string resolve_part obind] in P. rewrite app_nil_r in P. rewrite P.
    unfold guard_type_is, choice_is. split; [intros (u & Hu & Hc)|intros Hc; exists t; split; [|exact Hc]].
    + apply (proj2 (str_ok env [Lit t] u)) in Hu. cbn in Hu. rewrite app_nil_r in Hu. injection Hu as <-. exact Hc.
    + apply str_ok. cbn. now rewrite app_nil_r.
  - apply (G _ ObjectCreated (fun t => if text_eqb t (chars "created") then Ok ObjectCreated else if text_eqb t (chars "deleted") then Ok ObjectDeleted
        else if text_eqb t (chars "metadataUpdated") then Ok ObjectMetadataUpdated else Err ParseErr) storage_event_names).
    intros c. pose proof (storage_event_ok env [Lit t] c) as P. unfold resolve_storage_event in P. cbn [resolve_to_string resolve_part obind] in P. rewrite app_nil_r in P. rewrite P.
    unfold choice_is. split; [intros (u & Hu & Hc)|intros Hc; exists t; split; [|exact Hc]].
    + apply (proj2 (str_ok env [Lit t] u)) in Hu. cbn in Hu. rewrite app_nil_r in Hu. injection Hu as <-. exact Hc.
    + apply str_ok. cbn. now rewrite app_nil_r.
  - apply (G _ Http protocol_name protocol_names). intros c. apply protocol_name_ok.
  - apply (G _ Connect strategy_name strategy_names). intros c. apply strategy_name_ok.
Qed.
(** A base path configuration, or a token source configuration, without a protocol does not load. *)
Theorem C117_protocol_needed : forall a r,
  (exists d b, ap_domain F a = Some d /\ In (BaseConfig F b) (dm_paths F d) /\ bp_protocol F b = NNull F) \/
  (exists u e s, ap_auth F a = Some u /\ In e (au_guards F u) /\ gd_token F (snd e) = Some (SourceConfig F s) /\ vs_protocol F s = NNull F) ->
  resolve_spec (PApi F a) <> Ok r.
Proof.
  assert (MB : forall (A B E : Type) (f : A -> outcome E B) l x, In x l -> (forall b, f x <> Ok b) -> forall bs, mapo f l <> Ok bs).
  { intros A B E f l x. induction l as [|y l IH]; intros Hx Hf bs; [destruct Hx|]. cbn [mapo]. destruct Hx as [->|Hx].
    - destruct (f x) as [c| |] eqn:Ef; cbn; try discriminate. now elim (Hf c).
    - destruct (f y); cbn; try discriminate. destruct (mapo f l) as [cs| |] eqn:El; cbn; try discriminate. now elim (IH Hx Hf cs). }
  intros a r [(d & b & Ed & Hb & Eb)|(u & e & s & Eu & He & Es & Ep)] H; cbn [SpecResolveModel.resolve_spec] in H; apply omap_ok in H; destruct H as (x & H & _);
    unfold resolve_api in H; apply obind_ok in H; destruct H as (a1 & H1 & H); apply obind_ok in H; destruct H as (a2 & H2 & H);
    apply obind_ok in H; destruct H as (a3 & H3 & H); apply obind_ok in H; destruct H as (a4 & H4 & H).
  - rewrite Ed in H3. cbn [opto] in H3. apply omap_ok in H3. destruct H3 as (y & H3 & _). unfold resolve_domain in H3.
    apply obind_ok in H3. destruct H3 as (b1 & _ & H3). apply obind_ok in H3. destruct H3 as (b2 & G & _). revert G.
    apply (MB _ _ _ _ _ (BaseConfig F b) Hb). intros c Hc. cbn [resolve_base_path] in Hc. apply omap_ok in Hc. destruct Hc as (c' & Hc & _). unfold resolve_base in Hc. rewrite Eb in Hc. discriminate Hc.
  - rewrite Eu in H4. cbn [opto] in H4. apply omap_ok in H4. destruct H4 as (y & H4 & _). unfold resolve_auth in H4.
    apply obind_ok in H4. destruct H4 as (b1 & _ & H4). apply obind_ok in H4. destruct H4 as (b2 & G & _). revert G. unfold nameo.
    apply (MB _ _ _ _ _ e He). intros c Hc. apply obind_ok in Hc. destruct Hc as (g & Hg & _). unfold resolve_guard in Hg.
    apply obind_ok in Hg. destruct Hg as (g1 & _ & Hg). apply obind_ok in Hg. destruct Hg as (g2 & _ & Hg). apply obind_ok in Hg. destruct Hg as (g3 & Hg & _).
    rewrite Es in Hg. cbn [opto resolve_value_source] in Hg. apply omap_ok in Hg. destruct Hg as (g4 & Hg & _). apply omap_ok in Hg. destruct Hg as (g5 & Hg & _).
    unfold resolve_source in Hg. rewrite Ep in Hg. discriminate Hg.
Qed.

(** C118.  A text field set to one reference takes the variable's value, whatever it looks like:
    so for the texts of every spec. *)
Theorem C118_texts_partial : forall n v, variable env n v ->
  resolve_spec (PSchedule F [Ref n]) = Ok (RSchedule F v) /\
  (forall x r, resolve_spec (PHandler F x) = Ok (RHandler F r) ->
     (ha_handler F x = [Ref n] -> rha_handler r = v) /\ (ha_name F x = Some [Ref n] -> rha_name r = Some v) /\
     (ha_location F x = Some [Ref n] -> rha_location r = Some v) /\ (ha_runtime F x = Some [Ref n] -> rha_runtime r = Some v)) /\
  (forall x r, resolve_spec (PConsumer F x) = Ok (RConsumer F r) ->
     (co_source F x = Some [Ref n] -> rco_source r = Some v) /\ (co_routing F x = Some [Ref n] -> rco_routing r = Some v)).
Proof.
  intros n v Hv.
  assert (S : resolve_to_string env [Ref n] = Ok v).
  { cbn. unfold resolve_substitution. unfold variable in Hv. rewrite Hv. cbn. now rewrite app_nil_r. }
  split; [|split].
  - cbn [SpecResolveModel.resolve_spec]. rewrite S. reflexivity.
  - intros x r H. cbn [SpecResolveModel.resolve_spec] in H. apply omap_ok in H. destruct H as (y & H & E). injection E as <-. unfold resolve_handler in H.
    apply obind_ok in H. destruct H as (a1 & H1 & H). apply obind_ok in H. destruct H as (a2 & H2 & H). apply obind_ok in H. destruct H as (a3 & H3 & H).
    apply obind_ok in H. destruct H as (a4 & H4 & H). repeat (apply obind_ok in H; destruct H as (? & _ & H)). injection H as <-. cbn.
    split; [|split; [|split]]; intros E; rewrite E in *.
    + rewrite S in H3. now injection H3 as ->.
    + cbn [opto] in H1. rewrite S in H1. now injection H1 as <-.
    + cbn [opto] in H2. rewrite S in H2. now injection H2 as <-.
    + cbn [opto] in H4. rewrite S in H4. now injection H4 as <-.
  - intros x r H. cbn [SpecResolveModel.resolve_spec] in H. apply omap_ok in H. destruct H as (y & H & E). injection E as <-. unfold resolve_consumer in H.
    apply obind_ok in H. destruct H as (a1 & H1 & H). apply obind_ok in H. destruct H as (a2 & H2 & H). apply obind_ok in H. destruct H as (a3 & H3 & H).
    apply obind_ok in H. destruct H as (a4 & H4 & H). apply obind_ok in H. destruct H as (a5 & H5 & H). apply obind_ok in H. destruct H as (a6 & H6 & H).
    repeat (apply obind_ok in H; destruct H as (? & _ & H)). injection H as <-. cbn. split; intros E; rewrite E in *.
    + cbn [opto] in H1. rewrite S in H1. now injection H1 as <-.
    + cbn [opto] in H6. rewrite S in H6. now injection H6 as <-.
Qed.
(** False of the route key of a WebSocket configuration: a value that reads as a number or a truth
    value is refused. *)
Theorem C118_route_key_refuted : forall n v w rest r, variable env n v -> typed F parse_f64 v w -> (forall t, w <> SStr F t) ->
  resolve_protocol F parse_f64 env (NMap F [(chars "websocketConfig", NMap F ((chars "routeKey", NSub F [Ref n]) :: rest))]) <> Ok r.
Proof.
  intros n v w rest r Hv Ht Hw H. cbn [resolve_protocol] in H. change (nget (chars "websocketConfig") [(chars "websocketConfig", NMap F ((chars "routeKey", NSub F [Ref n]) :: rest))]) with (Some (NMap F ((chars "routeKey", NSub F [Ref n]) :: rest))) in H.
  cbn [resolve_websocket] in H. apply obind_ok in H. destruct H as (a1 & H1 & _). cbn [nget] in H1. change (text_eqb (chars "routeKey") (chars "routeKey")) with true in H1. cbn [opto] in H1.
  apply omap_ok in H1. destruct H1 as (t & H1 & _). apply string_node_ok in H1.
  - destruct H1 as [X|(ps & X & Hs)]; [discriminate|]. injection X as <-. apply (Hw t). eapply scalar_unique; [|exact Hs]. econstructor; eassumption.
  - intros d Ho. inversion Ho.
Qed.

(** C119.  False: a default guard that is not declared, and a token guard that says neither who
    issues tokens nor where they are, load. *)
Definition auth_doc (d g : text) : list (option text * yaml) :=
  [(Some (chars "protocols"), YSeq [YStr (chars "http")]);
   (Some (chars "auth"), YMap [(Some (chars "defaultGuard"), YStr d); (Some (chars "guards"), YMap [(Some g, YMap [(Some (chars "type"), YStr (chars "jwt"))])])])].
Theorem C119_guards_refuted : forall d g, contains (chars "${") d = false -> d <> g ->
  exists s, y_spec TApi (auth_doc d g) = Ok s /\
    resolve_spec s = Ok (RApi F {| rap_protocols := [Http]; rap_cors := None; rap_domain := None;
      rap_auth := Some {| rau_default := Some d; rau_guards := [(g, {| rgd_type := Jwt; rgd_issuer := None; rgd_token := None; rgd_audience := None |})] |};
      rap_tracing := None |}).
Proof.
  intros d g Hd _. apply (C51_plain_text k) in Hd. eexists. split.
  - cbv -[parse_substitutions]. rewrite Hd. reflexivity.
  - cbn. rewrite !app_nil_r. reflexivity.
Qed.
End Params.

(** The documents of SpecYamlProps, resolved. *)
Definition values_for (n : text) : option text :=
  if text_eqb n (chars "CELERITY_VARIABLE_auth") then Some (chars "connect") else if text_eqb n (chars "CELERITY_VARIABLE_host") then Some (chars "example.com")
  else if text_eqb n (chars "CELERITY_VARIABLE_size") then Some (chars "25") else if text_eqb n (chars "CELERITY_VARIABLE_stage") then Some (chars "7") else None.
Example C116_nonvacuous : one_each (YMap api_doc) /\ one_each (YMap consumer_doc) /\
  (exists s, y_spec Z tenths ascii_classes TApi api_doc = Ok s /\ resolve_spec Z tenths values_for s = Ok (RApi Z {|
    rap_protocols := [Http; WebSocketConfig (Some (chars "action")) (Some Connect)];
    rap_cors := Some (RCorsConfig {| rcr_credentials := None; rcr_origins := Some [chars "https://example.com"]; rcr_methods := None; rcr_headers := None; rcr_expose := None; rcr_age := Some 3600%Z |});
    rap_domain := Some {| rdm_name := chars "api.example.com"; rdm_paths := [RBaseText (chars "/"); RBaseConfig {| rbp_protocol := WebSocket; rbp_path := chars "/ws" |}];
      rdm_normalize := None; rdm_certificate := chars "cert"; rdm_policy := None |};
    rap_auth := Some {| rau_default := Some (chars "main"); rau_guards := [(chars "main", {| rgd_type := Jwt; rgd_issuer := Some (chars "https://auth");
      rgd_token := Some (RSourceConfig {| rvs_protocol := Http; rvs_source := chars "$.headers.Authorization" |}); rgd_audience := Some [chars "a"] |})] |};
    rap_tracing := Some true |})) /\
  (exists s r, y_spec Z tenths ascii_classes TConsumer consumer_doc = Ok s /\ resolve_spec Z tenths values_for s = Ok (RConsumer Z r) /\ rco_batch r = Some 25%Z) /\
  (exists s, y_spec Z tenths ascii_classes TApi api_doc = Ok s /\ resolve_spec Z tenths (fun _ => None) s = Err MissingVariable).
Proof.
  do 2 (split; [apply once_sound; vm_compute; reflexivity|]).
  split; [eexists; split; [vm_compute; reflexivity|vm_compute; reflexivity]|]. split; [eexists; eexists; split; [vm_compute; reflexivity|split; [vm_compute; reflexivity|vm_compute; reflexivity]]|].
  eexists; split; [vm_compute; reflexivity|vm_compute; reflexivity].
Qed.
Example C117_nonvacuous : parts_text values_for [Lit (chars "con"); Lit (chars "nect")] (chars "connect") /\
  resolve_strategy Z values_for (NSub Z [Ref (chars "auth")]) = Ok Connect /\
  resolve_protocol Z tenths values_for (NSub Z [Ref (chars "auth")]) = Err ParseErr /\
  (exists b, y_base Z ascii_classes [(K "basePath", T "/")] = Ok b /\ bp_protocol Z b = NNull Z) /\
  (exists b, y_source Z ascii_classes [(K "source", T "$.x")] = Ok b /\ vs_protocol Z b = NNull Z).
Proof.
  split; [apply str_ok; reflexivity|]. split; [reflexivity|]. split; [vm_compute; reflexivity|].
  split; (eexists; split; [vm_compute; reflexivity|reflexivity]).
Qed.
Example C118_nonvacuous : variable values_for (chars "stage") (chars "7") /\ typed Z tenths (chars "7") (SInt Z 7) /\
  resolve_protocol Z tenths values_for (NMap Z [(chars "websocketConfig", NMap Z [(chars "routeKey", NSub Z [Ref (chars "stage")])])]) = Err MustBeScalar /\
  resolve_protocol Z tenths values_for (NMap Z [(chars "websocketConfig", NMap Z [(chars "routeKey", NSub Z [Ref (chars "host")])])]) = Ok (WebSocketConfig (Some (chars "example.com")) None) /\
  (exists x r, resolve_spec Z tenths values_for (PHandler Z x) = Ok (RHandler Z r) /\ ha_handler Z x = [Ref (chars "stage")] /\ ha_name Z x = Some [Ref (chars "stage")]).
Proof.
  split; [reflexivity|]. split; [apply ty_int; split; [lia|left; exact (dm_one 7 ltac:(lia))]|]. split; [vm_compute; reflexivity|]. split; [vm_compute; reflexivity|].
  exists {| ha_name := Some [Ref (chars "stage")]; ha_location := None; ha_handler := [Ref (chars "stage")]; ha_runtime := None; ha_memory := None; ha_timeout := None; ha_tracing := None; ha_env := None |}. eexists. split; [vm_compute; reflexivity|split; reflexivity].
Qed.
Example C119_nonvacuous : contains (chars "${") (chars "admins") = false /\ chars "admins" <> chars "main".
Proof. split; [reflexivity|discriminate]. Qed.

Print Assumptions C116_readable.
Print Assumptions C116_exact.
Print Assumptions C116_never_panics.
Print Assumptions C116_loaded.
Print Assumptions C117_choices.
Print Assumptions C117_protocol_needed.
Print Assumptions C118_texts_partial.
Print Assumptions C118_route_key_refuted.
Print Assumptions C119_guards_refuted.
