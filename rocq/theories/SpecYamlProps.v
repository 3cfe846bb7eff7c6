(** C112 to C115: reading the specs of resources, metadata, link selectors and variables from YAML. *)
From Coq Require Import Permutation.
From Verif Require Import Base Chars SubstModel SubstProofs SubstProps ResolveModel BlueprintModel WfYamlModel WfYamlSpec WfYamlProofs WfYamlProps SpecYamlModel SpecYamlSpec SpecYamlProofs.
Local Open Scope list_scope.

Section Params.
Variable F : Type.
Variable parse_f64 : text -> option F.
Variable k : classes.
Hypothesis Hk : sane k.

(** * No panics *)
Lemma strings_safe l : y_strings k l <> Panic. Proof. exact (WfYamlProps.strings_safe F parse_f64 k Hk l). Qed.
Lemma text_safe v : y_text k v <> Panic. Proof. exact (WfYamlProps.text_safe F parse_f64 k Hk v). Qed.
Lemma int_safe v : y_int F k v <> Panic. Proof. exact (WfYamlProps.int_safe F parse_f64 k Hk v). Qed.
Lemma bool_safe v : y_bool F k v <> Panic. Proof. exact (WfYamlProps.bool_safe F parse_f64 k Hk v). Qed.
Lemma subs_safe t : subs k t <> Panic. Proof. exact (WfYamlProps.subs_safe F parse_f64 k Hk t). Qed.
Lemma mapping_safe {A} (f : _ -> outcome yerr A) v : (forall m, v = YMap m -> f m <> Panic) -> y_mapping f v <> Panic.
Proof. intros H. destruct v; try discriminate. now apply H. Qed.
Lemma seq_safe {A} (f : _ -> outcome yerr A) v : (forall w, f w <> Panic) -> y_seq f v <> Panic.
Proof. intros H. destruct v; try discriminate. apply safe_collect. intros a _. now apply safe_map. Qed.
Lemma named_safe {A} (f : _ -> outcome yerr A) m : (forall m', f m' <> Panic) -> y_named f m <> Panic.
Proof. intros H. apply safe_collect. intros [[key|] []] _; try discriminate. apply safe_bind; [apply H|discriminate]. Qed.
Lemma need_safe {A} key (f : yaml -> outcome yerr A) m : (forall v, f v <> Panic) -> need_field key f m <> Panic.
Proof. intros H. unfold need_field. destruct (yget key m); [apply H|discriminate]. Qed.
Lemma may_safe {A} key (f : yaml -> outcome yerr A) m : (forall v, f v <> Panic) -> may_field key f m <> Panic.
Proof. intros H. unfold may_field. destruct (yget key m); [apply safe_map, H|discriminate]. Qed.
Lemma ytexts_safe v : y_texts k v <> Panic.
Proof. destruct v; try discriminate. now apply strings_safe. Qed.
Lemma strmap_safe v : y_mapping (y_strmap k) v <> Panic.
Proof. apply mapping_safe. intros m _. apply safe_collect. intros [[key|] w] _; [|discriminate]. apply safe_bind; [now apply text_safe|discriminate]. Qed.
Lemma labels_safe v : y_mapping y_labels v <> Panic.
Proof. apply mapping_safe. intros m _. apply safe_collect. intros [[key|] w] _; [|discriminate]. apply safe_bind; [destruct w; discriminate|discriminate]. Qed.
Lemma string_safe v : y_string v <> Panic. Proof. destruct v; discriminate. Qed.
Lemma plain_bool_safe v : y_plain_bool v <> Panic. Proof. destruct v; discriminate. Qed.
Lemma scalar_safe v : y_scalar F parse_f64 v <> Panic.
Proof. destruct v; cbn; try discriminate. destruct (parse_f64 t); discriminate. Qed.
Lemma plain_protocol_safe v : y_plain_protocol F v <> Panic.
Proof. destruct v; cbn [y_plain_protocol]; try discriminate. destruct (text_eqb t _); [discriminate|]. destruct (text_eqb t _); discriminate. Qed.
Lemma guard_type_safe v : y_guard_type v <> Panic.
Proof. destruct v; cbn [y_guard_type]; try discriminate. destruct (text_eqb t _); [discriminate|]. destruct (text_eqb t _); discriminate. Qed.
Lemma event_type_safe v : y_event_type v <> Panic.
Proof. destruct v; cbn [y_event_type]; try discriminate. destruct (text_eqb t _); [discriminate|]. destruct (text_eqb t _); [discriminate|]. destruct (text_eqb t _); discriminate. Qed.
Ltac entry_tac := intros [[key|] v] _ x; [|discriminate];
  repeat match goal with
  | |- (if text_eqb ?a ?b then _ else _) <> Panic => destruct (text_eqb a b)
  | |- obind _ _ <> Panic => apply safe_bind; [|discriminate]
  | |- match ?v with YMap _ => _ | _ => _ end <> Panic => destruct v; try discriminate
  | |- match ?v with YSeq _ => _ | _ => _ end <> Panic => destruct v; try discriminate
  | |- match ?v with YStr _ => _ | _ => _ end <> Panic => destruct v; try discriminate
  end; try discriminate; auto using text_safe, int_safe, bool_safe, ytexts_safe, strmap_safe, labels_safe, string_safe, plain_bool_safe, scalar_safe, plain_protocol_safe, guard_type_safe, seq_safe.
Lemma shared_safe m : y_shared F k m <> Panic. Proof. apply safe_fold. unfold shared_entry. entry_tac. Qed.
Lemma handler_safe m : y_handler F k m <> Panic. Proof. apply safe_fold. unfold handler_entry. entry_tac. Qed.
Lemma schedule_safe m : y_schedule k m <> Panic. Proof. apply need_safe. intros v. now apply text_safe. Qed.
Lemma options_safe m : y_options F k m <> Panic. Proof. apply safe_fold. unfold options_entry. entry_tac. Qed.
Lemma event_source_safe ty m : y_event_source F k ty m <> Panic.
Proof.
  destruct ty; apply safe_map; (apply safe_bind; [apply need_safe; intros v; now apply text_safe|intros a]); (apply safe_bind; [|discriminate]).
  - apply may_safe. apply ytexts_safe.
  - apply options_safe.
  - apply options_safe.
Qed.
Lemma event_safe m : y_event F k m <> Panic.
Proof.
  apply safe_bind; [apply need_safe, event_type_safe|]. intros ty. apply safe_bind; [|discriminate]. apply need_safe. intros v. apply mapping_safe. intros m' _. apply event_source_safe.
Qed.
Lemma consumer_safe m : y_consumer F k m <> Panic.
Proof. apply safe_fold. unfold consumer_entry. entry_tac. apply mapping_safe. intros m' _. apply named_safe, event_safe. Qed.
Lemma cors_safe m : y_cors F k m <> Panic. Proof. apply safe_fold. unfold cors_entry. entry_tac. Qed.
Lemma base_safe m : y_base F k m <> Panic. Proof. apply safe_fold. unfold base_entry. entry_tac. Qed.
Lemma source_safe m : y_source F k m <> Panic. Proof. apply safe_fold. unfold source_entry. entry_tac. Qed.
Lemma base_path_safe v : y_base_path F k v <> Panic. Proof. destruct v; cbn [y_base_path]; try discriminate; apply safe_map; [now apply subs_safe|apply base_safe]. Qed.
Lemma value_source_safe v : y_value_source F k v <> Panic. Proof. destruct v; cbn [y_value_source]; try discriminate; apply safe_map; [now apply subs_safe|apply source_safe]. Qed.
Lemma cors_choice_safe v : y_cors_choice F k v <> Panic. Proof. destruct v; cbn [y_cors_choice]; try discriminate; apply safe_map; [now apply subs_safe|apply cors_safe]. Qed.
Lemma domain_safe m : y_domain F k m <> Panic.
Proof. apply safe_bind; [|intros x; destruct (_ || _); discriminate]. apply safe_fold. unfold domain_entry. entry_tac. apply seq_safe, base_path_safe. Qed.
Lemma guard_safe m : y_guard F k m <> Panic.
Proof. apply safe_bind; [|intros x; destruct (parts_empty _); discriminate]. apply safe_fold. unfold guard_entry. entry_tac. apply value_source_safe. Qed.
Lemma auth_safe m : y_auth F k m <> Panic.
Proof.
  apply safe_bind; [apply need_safe; intros v; apply mapping_safe; intros m' _; apply named_safe, guard_safe|]. intros g. apply safe_bind; [|discriminate].
  apply may_safe. intros v. now apply text_safe.
Qed.
Lemma protocol_safe v : y_protocol F k v <> Panic.
Proof.
  destruct v; try apply plain_protocol_safe. apply safe_map, need_safe. intros v. apply mapping_safe. intros m' _. apply safe_map, safe_collect.
  intros [[key|] w] _; [|discriminate]. destruct (text_eqb key _); [apply safe_bind; [now apply text_safe|discriminate]|].
  destruct (text_eqb key _); [apply safe_bind; [now apply text_safe|discriminate]|discriminate].
Qed.
Lemma api_safe m : y_api F k m <> Panic.
Proof.
  apply safe_bind; [|intros x; destruct (ap_protocols F x); discriminate]. apply safe_fold. unfold api_entry. entry_tac.
  - apply seq_safe, protocol_safe.
  - apply cors_choice_safe.
  - apply cors_choice_safe.
  - apply mapping_safe. intros m' _. apply domain_safe.
  - apply mapping_safe. intros m' _. apply auth_safe.
Qed.
Lemma config_safe m : y_config k m <> Panic. Proof. apply safe_fold. unfold config_entry. entry_tac. Qed.
Lemma bucket_safe m : y_bucket k m <> Panic. Proof. apply safe_fold. unfold bucket_entry. entry_tac. Qed.
Lemma topic_safe m : y_topic F k m <> Panic. Proof. apply safe_fold. unfold topic_entry. entry_tac. Qed.
Lemma queue_safe m : y_queue F k m <> Panic. Proof. apply safe_fold. unfold queue_entry. entry_tac. Qed.
Lemma metadata_safe m : y_metadata F parse_f64 k m <> Panic.
Proof.
  apply safe_bind; [|intros x; destruct (parts_empty _); discriminate]. apply safe_fold. unfold metadata_entry. entry_tac.
  apply mapping_safe. intros m' _. now apply payload_safe.
Qed.
Lemma var_safe m : y_var F parse_f64 m <> Panic.
Proof. apply safe_bind; [|intros x; destruct (va_type F x); discriminate]. apply safe_fold. unfold var_entry. entry_tac. Qed.

(** C112.  Reading the spec of a resource of each type succeeds exactly when the document
    declares one, with exactly what it declares; the same holds for the metadata of a resource, a
    link selector, the variables and the metadata of the blueprint. *)
Theorem C112_spec_exact : forall ty m, one_each (YMap m) -> forall s, y_spec F parse_f64 k ty m = Ok s <-> is_spec F parse_f64 k ty m s.
Proof. intros. now apply spec_ok. Qed.
Theorem C112_rest_exact : forall m, one_each (YMap m) ->
  (forall x, y_metadata F parse_f64 k m = Ok x <-> is_metadata F parse_f64 k m x) /\
  (forall r, y_selector m = Ok r <-> is_selector m r) /\
  (forall r, y_vars F parse_f64 m = Ok r <-> are_vars F parse_f64 m r) /\
  (forall o, y_blueprint_metadata F k m = Ok o <-> is_blueprint_metadata F k m o).
Proof.
  intros m Hm. split; [|split; [|split]]; intros x; [apply metadata_ok|apply selector_ok|apply vars_ok|apply blueprint_metadata_ok]; exact Hm.
Qed.
Theorem C112_never_panics : forall m, (forall ty, y_spec F parse_f64 k ty m <> Panic) /\
  y_metadata F parse_f64 k m <> Panic /\ y_selector m <> Panic /\ y_vars F parse_f64 m <> Panic /\ y_blueprint_metadata F k m <> Panic.
Proof.
  intros m. repeat split.
  - intros []; apply safe_map; auto using api_safe, consumer_safe, schedule_safe, handler_safe, shared_safe, config_safe, bucket_safe, topic_safe, queue_safe.
    now apply C104_never_panics.
  - apply metadata_safe.
  - apply need_safe. intros v. apply mapping_safe. discriminate.
  - apply named_safe, var_safe.
  - apply safe_fold. unfold blueprint_metadata_entry. entry_tac. apply shared_safe.
Qed.
(** The order of the keys does not matter. *)
Lemma perm_in {A} (m m' : list A) : Permutation m m' -> forall e, In e m -> In e m'.
Proof. intros P e. now apply Permutation_in. Qed.
Lemma perm_required {A} m m' key (R : yaml -> A -> Prop) a : Permutation m m' -> required m key R a -> required m' key R a.
Proof. intros P (v & Hi & H). exists v. split; [eapply Permutation_in; eassumption|exact H]. Qed.
Lemma perm_lenient {A} m m' key ok (R : yaml -> A -> Prop) o : Permutation m m' -> lenient m key ok R o -> lenient m' key ok R o.
Proof.
  intros P [(v & a & Hi & H)|[Hl ->]]; [left|right].
  - exists v, a. split; [eapply Permutation_in; eassumption|exact H].
  - split; [|reflexivity]. intros v Hi. apply Hl. eapply Permutation_in; [apply Permutation_sym, P|exact Hi].
Qed.
Ltac perm_tac P := repeat match goal with
  | H : _ /\ _ |- _ => destruct H
  | |- _ /\ _ => split
  | |- optional _ _ _ _ => eapply perm_optional; [exact P|assumption]
  | |- defaults _ _ _ _ _ => eapply perm_defaults; [exact P|assumption]
  | |- required _ _ _ _ => eapply perm_required; [exact P|assumption]
  | |- lenient _ _ _ _ _ => eapply perm_lenient; [exact P|assumption]
  end; try assumption.
Lemma perm_spec ty m m' s : Permutation m m' -> is_spec F parse_f64 k ty m s -> is_spec F parse_f64 k ty m' s.
Proof.
  intros P. destruct ty; cbn [is_spec]; intros (x & Hx & ->); exists x; (split; [|reflexivity]).
  1: unfold is_api in *; perm_tac P.
  1: unfold is_consumer in *; perm_tac P.
  1: perm_tac P.
  1: unfold is_handler in *; perm_tac P.
  1: unfold is_shared in *; perm_tac P.
  1: { destruct Hx as (HK & H1 & H2). split; [|split; eapply perm_defaults; eassumption].
       intros key Hi. apply HK. eapply Permutation_in; [apply Permutation_sym, perm_keys, P|exact Hi]. }
  1: unfold is_config in *; perm_tac P.
  1: unfold is_bucket in *; perm_tac P.
  1: unfold is_topic in *; perm_tac P.
  unfold is_queue in *; perm_tac P.
Qed.
Theorem C112_key_order : forall m m', one_each (YMap m) -> Permutation m m' ->
  (forall ty s, y_spec F parse_f64 k ty m = Ok s <-> y_spec F parse_f64 k ty m' = Ok s) /\
  (forall x, y_metadata F parse_f64 k m = Ok x <-> y_metadata F parse_f64 k m' = Ok x).
Proof.
  intros m m' Hm P. pose proof (perm_one_each m m' P Hm) as Hm'. pose proof (Permutation_sym P) as P'. split.
  - intros ty s. rewrite !C112_spec_exact by assumption. split; apply perm_spec; assumption.
  - intros x. rewrite (proj1 (C112_rest_exact _ Hm)), (proj1 (C112_rest_exact _ Hm')). unfold is_metadata. split; intros H; [perm_tac P|perm_tac P'].
Qed.

(** C113.  What is declared is kept.  Of environment variables, labels and annotations, every
    entry is kept under its name; of guards and external events, every entry that is a mapping;
    of a link selector, every entry that is a text; of a list, every element. *)
Lemma entries_keys m : map fst (entries_of m) = keys_of m.
Proof. unfold entries_of, keys_of. induction m as [|[[key|] v] m IH]; cbn; [reflexivity|now rewrite IH|exact IH]. Qed.
Lemma same_keys {A B} (R : A -> B -> Prop) (l : list (text * A)) r : Forall2 (fun a b => fst a = fst b /\ R (snd a) (snd b)) l r -> map fst r = map fst l.
Proof. induction 1 as [|a b l r [E _] _ IH]; cbn; [reflexivity|]. now rewrite E, IH. Qed.
Lemma named_in m name m' : In (name, m') (named_maps m) <-> In (Some name, YMap m') m.
Proof.
  unfold named_maps. rewrite in_flat_map. split.
  - intros ([[key|] []] & Hi & H); cbn in H; try contradiction. destruct H as [[= <- <-]|[]]. exact Hi.
  - intros H. exists (Some name, YMap m'). split; [exact H|now left].
Qed.
Theorem C113_kept_partial : forall m, one_each (YMap m) ->
  (forall x g, y_auth F k m = Ok x -> In (Some (chars "guards"), YMap g) m ->
     forall name, In name (map fst (au_guards F x)) <-> exists d, In (Some name, YMap d) g) /\
  (forall x e, y_consumer F k m = Ok x -> In (Some (chars "externalEvents"), YMap e) m ->
     exists r, co_events F x = Some r /\ forall name, In name (map fst r) <-> exists d, In (Some name, YMap d) e) /\
  (forall x e, y_handler F k m = Ok x -> In (Some (chars "environmentVariables"), YMap e) m -> exists r, ha_env F x = Some r /\ map fst r = keys_of e) /\
  (forall x e, y_shared F k m = Ok x -> In (Some (chars "environmentVariables"), YMap e) m -> exists r, hc_env F x = Some r /\ map fst r = keys_of e) /\
  (forall x e, y_metadata F parse_f64 k m = Ok x -> In (Some (chars "labels"), YMap e) m -> exists r, me_labels F x = Some r /\ map fst r = keys_of e) /\
  (forall x e, y_metadata F parse_f64 k m = Ok x -> In (Some (chars "annotations"), YMap e) m -> exists r, me_annotations F x = Some r /\ map fst r = keys_of e) /\
  (forall r e, y_selector m = Ok r -> In (Some (chars "byLabel"), YMap e) m -> forall name t, In (name, t) r <-> In (Some name, YStr t) e) /\
  (forall x l, y_api F k m = Ok x -> In (Some (chars "protocols"), YSeq l) m -> Forall2 (is_protocol F k) l (ap_protocols F x)) /\
  (forall x l, y_domain F k m = Ok x -> In (Some (chars "basePaths"), YSeq l) m -> Forall2 (is_base_path F k) l (dm_paths F x)).
Proof.
  intros m Hm. pose proof (one_each_keys m Hm) as Hn.
  assert (NM : forall {A} (R : _ -> A -> Prop) g r, are_named R g r -> forall name, In name (map fst r) <-> exists d, In (Some name, YMap d) g).
  { intros A R g r H name. rewrite (same_keys _ _ _ H), in_map_iff. split.
    - intros ((n, d) & <- & Hd). apply named_in in Hd. eauto.
    - intros (d & Hd). exists (name, d). split; [reflexivity|now apply named_in]. }
  assert (LN : forall {A} key ok (R : yaml -> A -> Prop) o v, lenient m key ok R o -> In (Some key, v) m -> ok v -> exists a, R v a /\ o = Some a).
  { intros A key ok R o v [(w & a & Hw & _ & HR & ->)|[Hl ->]] Hv Ho; [|now elim (Hl v Hv)].
    assert (v = w) as -> by (eapply keys_once; eassumption). eauto. }
  split; [|split; [|split; [|split; [|split; [|split; [|split; [|split]]]]]]].
  - intros x g Hx Hg. apply auth_ok in Hx; [|exact Hm]. destruct Hx as ((v & Hi & m' & -> & Hr) & _).
    assert (YMap g = YMap m') as [= <-] by (eapply keys_once; eassumption). eapply NM; exact Hr.
  - intros x e Hx He. apply consumer_ok in Hx; [|exact Hm]. destruct Hx as (_ & _ & _ & _ & _ & _ & H).
    destruct (optional_reads _ _ _ _ _ Hn H He) as (r & (m' & [= <-] & Hr) & ->). exists r. split; [reflexivity|]. eapply NM; exact Hr.
  - intros x e Hx He. apply handler_ok in Hx; [|exact Hm]. destruct Hx as (_ & _ & _ & _ & _ & _ & _ & H).
    destruct (optional_reads _ _ _ _ _ Hn H He) as (r & (m' & [= <-] & Hr) & ->). exists r. split; [reflexivity|]. rewrite (same_keys _ _ _ Hr). apply entries_keys.
  - intros x e Hx He. apply shared_ok in Hx; [|exact Hm]. destruct Hx as (_ & _ & _ & _ & _ & H).
    destruct (optional_reads _ _ _ _ _ Hn H He) as (r & (m' & [= <-] & Hr) & ->). exists r. split; [reflexivity|]. rewrite (same_keys _ _ _ Hr). apply entries_keys.
  - intros x e Hx He. apply metadata_ok in Hx; [|exact Hm]. destruct Hx as (_ & _ & H & _).
    destruct (LN _ _ _ _ _ _ H He) as (r & (m' & [= <-] & Hr) & ->); [now exists e|]. exists r. split; [reflexivity|].
    rewrite (same_keys (fun a b => a = YStr b) _ _ Hr). apply entries_keys.
  - intros x e Hx He. apply metadata_ok in Hx; [|exact Hm]. destruct Hx as (_ & H & _ & _).
    destruct (LN _ _ _ _ _ _ H He) as (r & (m' & [= <-] & Hr) & ->); [now exists e|]. exists r. split; [reflexivity|]. rewrite (same_keys _ _ _ Hr). apply entries_keys.
  - intros r e Hx He name t. apply selector_ok in Hx; [|exact Hm]. destruct Hx as (v & Hi & m' & -> & ->).
    assert (YMap e = YMap m') as [= <-] by (eapply keys_once; eassumption). unfold named_texts. rewrite in_flat_map. split.
    + intros ([[key|] []] & Hj & H); cbn in H; try contradiction. destruct H as [[= <- <-]|[]]. exact Hj.
    + intros H. exists (Some name, YStr t). split; [exact H|now left].
  - intros x l Hx Hl. apply api_ok in Hx; [|exact Hm]. destruct Hx as (H & _). now destruct (defaults_reads _ _ _ _ _ _ Hn H Hl) as (l' & [= <-] & Hr).
  - intros x l Hx Hl. apply domain_ok in Hx; [|exact Hm]. destruct Hx as (_ & H & _). now destruct (defaults_reads _ _ _ _ _ _ Hn H Hl) as (l' & [= <-] & Hr).
Qed.
(** A key that is not one of the fields of the spec - a misspelt one - makes no difference,
    except in a workflow. *)
Lemma yget_drop key key' v pre post : key' <> key -> yget key (pre ++ (Some key', v) :: post) = yget key (pre ++ post).
Proof.
  intros D. induction pre as [|[[key''|] w] pre IH]; cbn [app yget]; [destruct (text_eqb_spec key' key); [contradiction|reflexivity]|now rewrite IH|exact IH].
Qed.
Ltac unknown_tac H := intros x; cbn -[text_eqb chars]; repeat match goal with |- context [text_eqb ?a (chars ?b)] =>
  destruct (text_eqb_spec a (chars b)) as [->|?]; [exfalso; apply H; cbn [map In]; tauto|] end; reflexivity.
Theorem C113_misspelt_refuted : forall ty pre post key v, ty <> TWorkflow -> ~ In key (spec_fields ty) ->
  y_spec F parse_f64 k ty (pre ++ (Some key, v) :: post) = y_spec F parse_f64 k ty (pre ++ post).
Proof.
  intros ty pre post key v Hty H. destruct ty; try (now elim Hty); cbn [y_spec]; f_equal; cbv beta iota delta [spec_fields] in H.
  - unfold y_api. rewrite fold_drop; [reflexivity|unfold api_entry; unknown_tac H].
  - apply fold_drop. unfold consumer_entry. unknown_tac H.
  - unfold y_schedule, need_field. rewrite yget_drop; [reflexivity|]. intros ->. apply H. now left.
  - apply fold_drop. unfold handler_entry. unknown_tac H.
  - apply fold_drop. unfold shared_entry. unknown_tac H.
  - apply fold_drop. unfold config_entry. unknown_tac H.
  - apply fold_drop. unfold bucket_entry. unknown_tac H.
  - apply fold_drop. unfold topic_entry. unknown_tac H.
  - apply fold_drop. unfold queue_entry. unknown_tac H.
Qed.
(** A guard or an external event that is not a mapping, a selector entry that is not a text:
    dropped.  Cross-origin settings that are neither a text nor a mapping, labels, annotations and
    shared handler configuration that are not a mapping, allowed values that are not a list: ignored. *)
Ltac keyr := repeat match goal with |- context [text_eqb (chars ?a) (chars ?b)] =>
  let r := eval cbv in (text_eqb (chars a) (chars b)) in change (text_eqb (chars a) (chars b)) with r; cbv iota end.
Theorem C113_wrong_shape_refuted : forall pre post v,
  (forall a b name, (forall m, v <> YMap m) ->
     y_auth F k ((Some (chars "guards"), YMap (a ++ (Some name, v) :: b)) :: post) = y_auth F k ((Some (chars "guards"), YMap (a ++ b)) :: post) /\
     y_consumer F k (pre ++ (Some (chars "externalEvents"), YMap (a ++ (Some name, v) :: b)) :: post) = y_consumer F k (pre ++ (Some (chars "externalEvents"), YMap (a ++ b)) :: post)) /\
  (forall a b name, (forall t, v <> YStr t) ->
     y_selector ((Some (chars "byLabel"), YMap (a ++ (Some name, v) :: b)) :: post) = y_selector ((Some (chars "byLabel"), YMap (a ++ b)) :: post)) /\
  (~ is_text_or_mapping v -> y_api F k (pre ++ (Some (chars "cors"), v) :: post) = y_api F k (pre ++ post)) /\
  (~ is_a_mapping v -> 
     y_metadata F parse_f64 k (pre ++ (Some (chars "labels"), v) :: post) = y_metadata F parse_f64 k (pre ++ post) /\
     y_metadata F parse_f64 k (pre ++ (Some (chars "annotations"), v) :: post) = y_metadata F parse_f64 k (pre ++ post) /\
     y_blueprint_metadata F k (pre ++ (Some (chars "sharedHandlerConfig"), v) :: post) = y_blueprint_metadata F k (pre ++ post)) /\
  (~ is_a_sequence v -> y_var F parse_f64 (pre ++ (Some (chars "allowedValues"), v) :: post) = y_var F parse_f64 (pre ++ post)).
Proof.
  intros pre post v.
  assert (ND : forall {A} (f : _ -> outcome yerr A) a b name, (forall m, v <> YMap m) -> y_named f (a ++ (Some name, v) :: b) = y_named f (a ++ b)).
  { intros A f a b name Hv. apply collect_drop. destruct v; try reflexivity. now elim (Hv m). }
  split; [|split; [|split; [|split]]].
  - intros a b name Hv. split.
    + unfold y_auth, need_field, may_field. cbn [yget]. keyr. cbn [y_mapping]. now rewrite ND.
    + unfold y_consumer. erewrite fold_same; [reflexivity|]. intros x. unfold consumer_entry. keyr. cbn [y_mapping]. now rewrite ND.
  - intros a b name Hv. unfold y_selector, need_field. cbn [yget]. keyr. cbn [y_mapping]. f_equal. rewrite !flat_map_app. cbn [flat_map].
    f_equal. destruct v; try reflexivity. now elim (Hv t).
  - intros Hv. unfold y_api. rewrite fold_drop; [reflexivity|]. intros x. unfold api_entry. keyr. destruct v; try reflexivity; elim Hv; [left; eexists; reflexivity|right; eexists; reflexivity].
  - intros Hv. repeat split.
    + unfold y_metadata. rewrite fold_drop; [reflexivity|]. intros x. unfold metadata_entry. keyr. destruct v; try reflexivity; elim Hv; eexists; reflexivity.
    + unfold y_metadata. rewrite fold_drop; [reflexivity|]. intros x. unfold metadata_entry. keyr. destruct v; try reflexivity; elim Hv; eexists; reflexivity.
    + apply fold_drop. intros x. unfold blueprint_metadata_entry. keyr. destruct v; try reflexivity; elim Hv; eexists; reflexivity.
  - intros Hv. unfold y_var. rewrite fold_drop; [reflexivity|]. intros x. unfold var_entry. keyr. destruct v; try reflexivity; elim Hv; eexists; reflexivity.
Qed.

(** C114.  A whole number or a truth value of a spec may be given by a reference - and by no
    other text. *)
Lemma fold_cons {X} (step : X -> option text * yaml -> outcome yerr X) e m x : foldo step x (e :: m) = let! y := step x e in foldo step y m.
Proof. reflexivity. Qed.
Lemma single_ref t n : parse_substitutions k t = Ok [Ref n] -> single k t = Ok [Ref n].
Proof. intros H. apply single_ok. eauto. Qed.
Theorem C114_references_partial : forall ty key m s t n, In (ty, key) number_fields -> one_each (YMap m) -> lacks m key ->
  y_spec F parse_f64 k ty m = Ok s -> parse_substitutions k t = Ok [Ref n] -> exists s', y_spec F parse_f64 k ty ((Some key, YStr t) :: m) = Ok s'.
Proof.
  intros ty key m s t n Hin Hm Hl Hs Ht.
  assert (Hm' : one_each (YMap ((Some key, YStr t) :: m))).
  { intros x Hx. inversion Hx as [|w l Hw Hi|key' w x' Hw Hi]; subst.
    - unfold keys_of. cbn. constructor; [exact Hl|now apply one_each_keys].
    - destruct Hw as [E|Hw]; [injection E as <- <-; inversion Hi|]. apply Hm. econstructor; eassumption. }
  assert (O0 : forall {A} (R : yaml -> A -> Prop) o, (exists a, R (YStr t) a) -> optional m key R o -> exists o', optional ((Some key, YStr t) :: m) key R o').
  { intros A R o (a & Ha) _. exists (Some a). left. exists (YStr t), a. repeat split; [now left|exact Ha]. }
  assert (O1 : forall {A} key' (R : yaml -> A -> Prop) o, key' <> key -> optional m key' R o -> optional ((Some key, YStr t) :: m) key' R o).
  { intros A key' R o D [(v & a & Hi & H)|[Hn ->]]; [left; exists v, a; split; [now right|exact H]|right; split; [|reflexivity]].
    unfold lacks, keys_of. cbn. intros [E|E]; [now elim D|now apply Hn]. }
  assert (D1 : forall {A} key' (R : yaml -> A -> Prop) d o, key' <> key -> defaults m key' R d o -> defaults ((Some key, YStr t) :: m) key' R d o).
  { intros A key' R d o D [(v & Hi & H)|[Hn ->]]; [left; exists v; split; [now right|exact H]|right; split; [|reflexivity]].
    unfold lacks, keys_of. cbn. intros [E|E]; [now elim D|now apply Hn]. }
  assert (L1 : forall {A} key' ok (R : yaml -> A -> Prop) o, key' <> key -> lenient m key' ok R o -> lenient ((Some key, YStr t) :: m) key' ok R o).
  { intros A key' ok R o D [(v & a & Hi & H)|[Hn ->]]; [left; exists v, a; split; [now right|exact H]|right; split; [|reflexivity]].
    intros v [[= E _]|Hi]; [now elim D|now apply Hn]. }
  assert (OI : optional ((Some key, YStr t) :: m) key (is_int F k) (Some (NSub F [Ref n]))).
  { left. exists (YStr t), (NSub F [Ref n]). repeat split; [now left|]. right. exists t, n. repeat split. exact Ht. }
  assert (OB : optional ((Some key, YStr t) :: m) key (is_bool F k) (Some (NSub F [Ref n]))).
  { left. exists (YStr t), (NSub F [Ref n]). repeat split; [now left|]. right. exists t, n. repeat split. exact Ht. }
  assert (DB : defaults ((Some key, YStr t) :: m) key (fun v o => exists a, is_bool F k v a /\ o = Some a) (Some (NScalar F (SBool F false))) (Some (NSub F [Ref n]))).
  { left. exists (YStr t). split; [now left|]. exists (NSub F [Ref n]). split; [|reflexivity]. right. exists t, n. repeat split. exact Ht. }
  apply C112_spec_exact in Hs; [|exact Hm].
  assert (G : exists s', is_spec F parse_f64 k ty ((Some key, YStr t) :: m) s').
  2: { destruct G as (s' & G). exists s'. now apply C112_spec_exact. }
  unfold number_fields in Hin. cbn [In] in Hin.
  repeat match type of Hin with _ \/ _ => destruct Hin as [Hin|Hin] end; [injection Hin as <- <-..|destruct Hin]; cbn [is_spec] in *; destruct Hs as (x & Hx & ->); destruct x.
  all: match goal with
  | H : is_handler _ _ _ _ |- _ => destruct H as (H1 & H2 & H3 & H4 & H5 & H6 & H7 & H8)
  | H : is_shared _ _ _ _ |- _ => destruct H as (H1 & H2 & H3 & H4 & H5 & H6)
  | H : is_consumer _ _ _ _ |- _ => destruct H as (H1 & H2 & H3 & H4 & H5 & H6 & H7)
  | H : is_api _ _ _ _ |- _ => destruct H as (H1 & H2 & H3 & H4 & H5 & H6)
  | H : is_topic _ _ _ _ |- _ => destruct H as (H1 & H2)
  | H : is_queue _ _ _ _ |- _ => destruct H as (H1 & H2 & H3)
  end; cbn in H1, H2.
  all: try (eexists; eexists (Build_handler F _ _ _ _ _ _ _ _); split; [|reflexivity]; repeat split; cbn;
            first [exact OI|exact OB|apply O1; [discriminate|eassumption]|apply D1; [discriminate|eassumption]]).
  all: try (eexists; eexists (Build_shared F _ _ _ _ _ _); split; [|reflexivity]; repeat split; cbn;
            first [exact OI|exact OB|apply O1; [discriminate|eassumption]]).
  all: try (eexists; eexists (Build_consumer F _ _ _ _ _ _ _); split; [|reflexivity]; repeat split; cbn;
            first [exact OI|exact OB|apply O1; [discriminate|eassumption]]).
  all: try (eexists; eexists (Build_api F _ _ _ _ _); split; [|reflexivity]; repeat split; cbn;
            first [exact OB|apply O1; [discriminate|eassumption]|apply D1; [discriminate|eassumption]|apply L1; [discriminate|eassumption]|exact H6]).
  all: try (eexists; eexists (Build_topic F _ _); split; [|reflexivity]; repeat split; cbn; first [exact DB|apply O1; [discriminate|eassumption]]).
  all: eexists; eexists (Build_queue F _ _ _); split; [|reflexivity]; repeat split; cbn; first [exact DB|exact OI|apply O1; [discriminate|eassumption]|apply D1; [discriminate|eassumption]].
Qed.
Lemma fold_ran_at {X} (step : X -> option text * yaml -> outcome yerr X) x m y key v : foldo step x m = Ok y -> In (Some key, v) m -> exists z z', step z (Some key, v) = Ok z'.
Proof. intros H Hi. exact (fold_ran _ _ _ _ H _ _ Hi). Qed.
Theorem C114_other_texts : forall ty key m s t, In (ty, key) number_fields -> In (Some key, YStr t) m -> y_spec F parse_f64 k ty m = Ok s ->
  exists n, parse_substitutions k t = Ok [Ref n].
Proof.
  intros ty key m s t Hin Hi Hs.
  assert (SI : forall a, y_int F k (YStr t) = Ok a -> exists n, parse_substitutions k t = Ok [Ref n]).
  { intros a Ha. apply int_ok in Ha. destruct Ha as [(z & [=] & _)|(u & n & [= <-] & Hp & _)]. eauto. }
  assert (SB : forall a, y_bool F k (YStr t) = Ok a -> exists n, parse_substitutions k t = Ok [Ref n]).
  { intros a Ha. apply bool_ok in Ha. destruct Ha as [(z & [=] & _)|(u & n & [= <-] & Hp & _)]. eauto. }
  unfold number_fields in Hin. cbn [In] in Hin.
  repeat match type of Hin with _ \/ _ => destruct Hin as [Hin|Hin] end; [injection Hin as <- <-..|destruct Hin];
    cbn [y_spec] in Hs; apply omap_ok in Hs; destruct Hs as (x & Hx & _); try (apply obind_ok in Hx; destruct Hx as (x0 & Hx & _));
    destruct (fold_ran_at _ _ _ _ _ _ Hx Hi) as (z & z' & H); unfold handler_entry, shared_entry, consumer_entry, api_entry, topic_entry, queue_entry in H;
    repeat match type of H with context [text_eqb (chars ?a) (chars ?b)] =>
      let r := eval cbv in (text_eqb (chars a) (chars b)) in change (text_eqb (chars a) (chars b)) with r in H; cbv iota in H end;
    apply obind_ok in H; destruct H as (a & Ha & _); first [exact (SI a Ha)|exact (SB a Ha)].
Qed.
(** A protocol and the type of a guard are resolved like any other text later on, but reading them
    admits no reference. *)
Theorem C114_protocol_refuted : forall m t l, ~ In t [chars "http"; chars "websocket"] ->
  (In (Some (chars "protocols"), YSeq l) m -> In (YStr t) l -> forall x, y_api F k m <> Ok x) /\
  (In (Some (chars "protocol"), YStr t) m -> (forall x, y_base F k m <> Ok x) /\ (forall x, y_source F k m <> Ok x)).
Proof.
  intros m t l Ht.
  assert (PP : forall n, y_plain_protocol F (YStr t) <> Ok n).
  { intros n H. apply plain_protocol_ok in H. destruct H as (u & [= <-] & H & _). contradiction. }
  split.
  - intros Hi Hl x Hx. apply obind_ok in Hx. destruct Hx as (x0 & Hx & _). destruct (fold_ran_at _ _ _ _ _ _ Hx Hi) as (z & z' & H).
    unfold api_entry in H. change (text_eqb (chars "protocols") (chars "protocols")) with true in H. cbv iota in H. apply obind_ok in H. destruct H as (a & Ha & _).
    cbn [y_seq] in Ha. apply (collect_all (fun v n => y_protocol F k v = Ok n)) in Ha; [|intros v _ b; reflexivity].
    destruct (Forall2_in _ _ _ _ Ha Hl) as (n & _ & Hp). exact (PP n Hp).
  - intros Hi. split; intros x Hx; destruct (fold_ran_at _ _ _ _ _ _ Hx Hi) as (z & z' & H); unfold base_entry, source_entry in H;
      change (text_eqb (chars "protocol") (chars "protocol")) with true in H; cbv iota in H; apply obind_ok in H; destruct H as (a & Ha & _); exact (PP a Ha).
Qed.
Theorem C114_guard_type_refuted : forall m t, ~ In t [chars "jwt"; chars "custom"] -> In (Some (chars "type"), YStr t) m -> forall x, y_guard F k m <> Ok x.
Proof.
  intros m t Ht Hi x Hx. apply obind_ok in Hx. destruct Hx as (x0 & Hx & _). destruct (fold_ran_at _ _ _ _ _ _ Hx Hi) as (z & z' & H).
  unfold guard_entry in H. change (text_eqb (chars "type") (chars "type")) with true in H. cbv iota in H. apply obind_ok in H. destruct H as (a & Ha & _).
  apply guard_type_ok in Ha. destruct Ha as (u & [= <-] & Hu & _). contradiction.
Qed.

(** C115.  Fields that must be there. *)
Theorem C115_required_partial : forall m, one_each (YMap m) ->
  (forall s, y_spec F parse_f64 k TSchedule m = Ok s -> exists t, In (Some (chars "schedule"), YStr t) m) /\
  (forall s, y_spec F parse_f64 k TApi m = Ok s -> exists p l, In (Some (chars "protocols"), YSeq (p :: l)) m) /\
  (forall x, y_domain F k m = Ok x -> exists a b p l, In (Some (chars "domainName"), YStr a) m /\ In (Some (chars "certificateId"), YStr b) m /\
     a <> [] /\ b <> [] /\ In (Some (chars "basePaths"), YSeq (p :: l)) m) /\
  (forall x, y_auth F k m = Ok x -> exists g, In (Some (chars "guards"), YMap g) m) /\
  (forall x, y_guard F k m = Ok x -> exists t, In (Some (chars "type"), YStr t) m /\ In t [chars "jwt"; chars "custom"]) /\
  (forall x, y_metadata F parse_f64 k m = Ok x -> exists t, t <> [] /\ In (Some (chars "displayName"), YStr t) m) /\
  (forall x, y_var F parse_f64 m = Ok x -> exists t, t <> [] /\ In (Some (chars "type"), YStr t) m) /\
  (forall x, y_storage k m = Ok x -> exists t, In (Some (chars "bucket"), YStr t) m) /\
  (forall x, y_database F k m = Ok x -> exists t, In (Some (chars "dbStreamId"), YStr t) m) /\
  (forall x, y_data F k m = Ok x -> exists t, In (Some (chars "dataStreamId"), YStr t) m) /\
  (forall x, y_selector m = Ok x -> exists g, In (Some (chars "byLabel"), YMap g) m).
Proof.
  intros m Hm.
  assert (E0 : parse_substitutions k [] = Ok [Lit []]) by reflexivity.
  assert (DT : forall key a, defaults m key (is_text k) [] a -> ~ is_empty a -> exists t, t <> [] /\ In (Some key, YStr t) m).
  { intros key a [(v & Hi & t & -> & Hp)|[_ ->]] He; [|elim He; now left]. exists t. split; [|exact Hi]. intros ->. rewrite E0 in Hp. injection Hp as <-. elim He. now right. }
  assert (RT : forall key a, required m key (is_text k) a -> exists t, In (Some key, YStr t) m).
  { intros key a (v & Hi & t & -> & _). eauto. }
  split; [|split; [|split; [|split; [|split; [|split; [|split; [|split; [|split; [|split]]]]]]]]].
  - intros s Hs. apply C112_spec_exact in Hs; [|exact Hm]. destruct Hs as (x & Hx & _). eauto.
  - intros s Hs. apply C112_spec_exact in Hs; [|exact Hm]. destruct Hs as (x & (H & _ & _ & _ & _ & D) & _).
    destruct H as [(v & Hi & l & -> & HF)|[_ E]]; [|contradiction]. destruct HF; [now elim D|eauto].
  - intros x Hx. apply domain_ok in Hx; [|exact Hm]. destruct Hx as (H1 & H2 & _ & H3 & _ & D1 & D2 & D3).
    destruct (DT _ _ H1 D1) as (a & Na & Ha). destruct (DT _ _ H3 D3) as (b & Nb & Hb).
    destruct H2 as [(v & Hi & l & -> & HF)|[_ E]]; [|contradiction]. destruct HF; [now elim D2|]. eauto 12.
  - intros x Hx. apply auth_ok in Hx; [|exact Hm]. destruct Hx as ((v & Hi & g & -> & _) & _). eauto.
  - intros x Hx. apply guard_ok in Hx; [|exact Hm]. destruct Hx as (H & _ & _ & _ & D).
    destruct H as [(v & Hi & t & -> & Ht & _)|[_ E]]; [eauto|]. rewrite E in D. elim D. now left.
  - intros x Hx. apply metadata_ok in Hx; [|exact Hm]. destruct Hx as (H & _ & _ & D). eauto.
  - intros x Hx. apply var_ok in Hx; [|exact Hm]. destruct Hx as (H & _ & _ & _ & _ & D).
    destruct H as [(v & Hi & ->)|[_ E]]; [eauto|contradiction].
  - intros x Hx. apply storage_ok in Hx; [|exact Hm]. destruct Hx as (H & _). eauto.
  - intros x Hx. apply database_ok in Hx; [|exact Hm]. destruct Hx as (H & _). eauto.
  - intros x Hx. apply data_ok in Hx; [|exact Hm]. destruct Hx as (H & _). eauto.
  - intros x Hx. apply selector_ok in Hx; [|exact Hm]. destruct Hx as (v & Hi & g & -> & _). eauto.
Qed.
(** The configuration of the source of an event is the one its type asks for. *)
Theorem C115_source_matches : forall m ty s, one_each (YMap m) -> y_event F k m = Ok (ty, s) ->
  exists t c, In (Some (chars "sourceType"), YStr t) m /\ In (Some (chars "sourceConfiguration"), YMap c) m /\
    match s with
    | FromStorage _ _ => t = chars "objectStorage" /\ ty = ObjectStorage
    | FromDatabase _ _ => t = chars "dbStream" /\ ty = DatabaseStream
    | FromData _ _ => t = chars "dataStream" /\ ty = DataStream
    end.
Proof.
  intros m ty s Hm H. apply event_ok in H; [|exact Hm]. destruct H as ((v & Hi & t & -> & Ht) & (w & Hj & c & -> & Hs)). cbn [fst snd] in *.
  exists t, c. split; [exact Hi|]. split; [exact Hj|].
  destruct ty; destruct Hs as (x & _ & ->); destruct Ht as [E|[E|[E|[]]]]; try discriminate; injection E as <-; split; reflexivity.
Qed.
(** The handler of a handler, the events of a bucket, the source of a token and its protocol, the
    path of a base path and its protocol, and what a consumer consumes may be left out. *)
Theorem C115_missing_refuted :
  (exists x, y_spec F parse_f64 k THandler [] = Ok (PHandler F x) /\ ha_handler F x = []) /\
  (forall m x, one_each (YMap m) -> y_handler F k m = Ok x -> lacks m (chars "handler") -> ha_handler F x = []) /\
  (forall m x, one_each (YMap m) -> y_storage k m = Ok x -> lacks m (chars "events") -> os_events x = []) /\
  (forall m x, one_each (YMap m) -> y_source F k m = Ok x -> lacks m (chars "source") -> vs_source F x = []) /\
  (forall m x, one_each (YMap m) -> y_source F k m = Ok x -> lacks m (chars "protocol") -> vs_protocol F x = NNull F) /\
  (forall m x, one_each (YMap m) -> y_base F k m = Ok x -> lacks m (chars "basePath") -> bp_path F x = []) /\
  (forall m x, one_each (YMap m) -> y_base F k m = Ok x -> lacks m (chars "protocol") -> bp_protocol F x = NNull F) /\
  (exists x, y_spec F parse_f64 k TConsumer [] = Ok (PConsumer F x) /\ co_source F x = None /\ co_events F x = None).
Proof.
  assert (D : forall {A} m key (R : yaml -> A -> Prop) d a, defaults m key R d a -> lacks m key -> a = d).
  { intros A m key R d a [(v & Hi & _)|[_ ->]] Hl; [|reflexivity]. elim Hl. apply keys_in. eauto. }
  split; [eexists; split; reflexivity|]. split; [|split; [|split; [|split; [|split; [|split]]]]]; [intros m x Hm H Hl..|].
  - apply handler_ok in H; [|exact Hm]. exact (D _ _ _ _ _ _ (proj1 (proj2 (proj2 H))) Hl).
  - apply storage_ok in H; [|exact Hm]. exact (D _ _ _ _ _ _ (proj2 H) Hl).
  - apply source_ok in H; [|exact Hm]. exact (D _ _ _ _ _ _ (proj2 H) Hl).
  - apply source_ok in H; [|exact Hm]. exact (D _ _ _ _ _ _ (proj1 H) Hl).
  - apply base_ok in H; [|exact Hm]. exact (D _ _ _ _ _ _ (proj2 H) Hl).
  - apply base_ok in H; [|exact Hm]. exact (D _ _ _ _ _ _ (proj1 H) Hl).
  - eexists. repeat split; reflexivity.
Qed.
End Params.

(** * A document that meets the hypotheses *)
Definition api_doc : list (option text * yaml) :=
  [(K "protocols", YSeq [T "http"; YMap [(K "websocketConfig", YMap [(K "routeKey", T "action"); (K "authStrategy", T "${variables.auth}")])]]);
   (K "cors", YMap [(K "allowOrigins", YSeq [T "https://${variables.host}"]); (K "maxAge", YInt 3600)]);
   (K "domain", YMap [(K "domainName", T "api.example.com"); (K "basePaths", YSeq [T "/"; YMap [(K "protocol", T "websocket"); (K "basePath", T "/ws")]]); (K "certificateId", T "cert")]);
   (K "auth", YMap [(K "defaultGuard", T "main"); (K "guards", YMap [(K "main", YMap [(K "type", T "jwt"); (K "issuer", T "https://auth");
        (K "tokenSource", YMap [(K "protocol", T "http"); (K "source", T "$.headers.Authorization")]); (K "audience", YSeq [T "a"])]); (K "broken", T "jwt")])]);
   (K "tracingEnabled", YBool true)].
Definition consumer_doc : list (option text * yaml) :=
  [(K "batchSize", T "${variables.size}");
   (K "externalEvents", YMap [(K "files", YMap [(K "sourceType", T "objectStorage"); (K "sourceConfiguration", YMap [(K "bucket", T "b"); (K "events", YSeq [T "created"])])]);
                              (K "rows", YMap [(K "sourceType", T "dbStream"); (K "sourceConfiguration", YMap [(K "dbStreamId", T "s"); (K "batchSize", YInt 10)])])])].
Definition handler_doc : list (option text * yaml) :=
  [(K "handlerName", T "orders"); (K "codeLocation", T "./app"); (K "handler", T "orders.create"); (K "runtime", T "nodejs22"); (K "timeout", YInt 30);
   (K "environmentVariables", YMap [(K "A", T "1"); (K "B", T "${variables.b}")])].
Example C112_nonvacuous : one_each (YMap api_doc) /\ one_each (YMap consumer_doc) /\ one_each (YMap handler_doc) /\
  (exists s, y_spec Z tenths ascii_classes TApi api_doc = Ok s) /\ (exists s, y_spec Z tenths ascii_classes TConsumer consumer_doc = Ok s) /\
  (exists x, y_spec Z tenths ascii_classes THandler handler_doc = Ok (PHandler Z x) /\ ha_timeout Z x = Some (NScalar Z (SInt Z 30)) /\
     ha_env Z x = Some [(chars "A", [Lit (chars "1")]); (chars "B", [Ref (chars "b")])]) /\
  (exists x, y_metadata Z tenths ascii_classes [(K "displayName", T "Orders"); (K "labels", YMap [(K "app", T "orders")])] = Ok x) /\
  (exists r, y_vars Z tenths [(K "size", YMap [(K "type", T "integer"); (K "default", YInt 5); (K "allowedValues", YSeq [YInt 5; YReal (chars "1.5")])])] = Ok r) /\
  (exists s, y_spec Z tenths ascii_classes TQueue [(K "name", T "q")] = Ok (PQueue Z s) /\ qu_fifo Z s = Some (NScalar Z (SBool Z false))).
Proof.
  do 3 (split; [apply once_sound; vm_compute; reflexivity|]). split; [eexists; vm_compute; reflexivity|]. split; [eexists; vm_compute; reflexivity|].
  split; [eexists; split; [vm_compute; reflexivity|split; reflexivity]|]. split; [eexists; vm_compute; reflexivity|]. split; [eexists; vm_compute; reflexivity|].
  eexists. split; [vm_compute; reflexivity|reflexivity].
Qed.
Example C113_nonvacuous :
  (exists x a, y_api Z ascii_classes api_doc = Ok x /\ ap_auth Z x = Some a /\ map fst (au_guards Z a) = [chars "main"]) /\
  ~ In (chars "timout") (spec_fields THandler) /\ ~ is_text_or_mapping (YBool true) /\
  (exists x, y_api Z ascii_classes [(K "protocols", YSeq [T "http"]); (K "cors", YBool true)] = Ok x /\ ap_cors Z x = None) /\
  y_selector [(K "byLabel", YMap [(K "app", T "orders"); (K "tier", YInt 1)])] = Ok [(chars "app", chars "orders")].
Proof.
  split; [eexists; eexists; split; [vm_compute; reflexivity|split; reflexivity]|]. split.
  { intros H. vm_compute in H. repeat (destruct H as [H|H]; [discriminate|]). exact H. }
  split; [intros [(t & [=])|(m & [=])]|]. split; [eexists; split; [vm_compute; reflexivity|reflexivity]|]. vm_compute. reflexivity.
Qed.
Example C114_nonvacuous : In (TConsumer, chars "batchSize") number_fields /\ parse_substitutions ascii_classes (chars "${variables.size}") = Ok [Ref (chars "size")] /\
  lacks [] (chars "batchSize") /\ ~ In (chars "${variables.p}") [chars "http"; chars "websocket"] /\
  y_api Z ascii_classes [(K "protocols", YSeq [T "${variables.p}"])] = Err YFormat /\
  y_guard Z ascii_classes [(K "type", T "${variables.t}")] = Err YFormat.
Proof.
  split; [unfold number_fields; cbn [In]; tauto|]. split; [vm_compute; reflexivity|]. split; [intros []|]. split.
  { intros H. vm_compute in H. repeat (destruct H as [H|H]; [discriminate|]). exact H. }
  split; vm_compute; reflexivity.
Qed.
Example C115_nonvacuous :
  (exists ty s, y_event Z ascii_classes [(K "sourceConfiguration", YMap [(K "dataStreamId", T "s")]); (K "sourceType", T "dataStream")] = Ok (ty, s)) /\
  (exists x, y_storage ascii_classes [(K "bucket", T "b")] = Ok x) /\ (exists x, y_source Z ascii_classes [] = Ok x) /\ (exists x, y_base Z ascii_classes [] = Ok x) /\
  y_event Z ascii_classes [(K "sourceConfiguration", YMap [(K "dataStreamId", T "s")]); (K "sourceType", T "dbStream")] = Err YFormat.
Proof.
  split; [eexists; eexists; vm_compute; reflexivity|]. split; [eexists; vm_compute; reflexivity|]. split; [eexists; vm_compute; reflexivity|].
  split; [eexists; vm_compute; reflexivity|]. vm_compute. reflexivity.
Qed.

Print Assumptions C112_spec_exact.
Print Assumptions C112_rest_exact.
Print Assumptions C112_never_panics.
Print Assumptions C112_key_order.
Print Assumptions C113_kept_partial.
Print Assumptions C113_misspelt_refuted.
Print Assumptions C113_wrong_shape_refuted.
Print Assumptions C114_references_partial.
Print Assumptions C114_other_texts.
Print Assumptions C114_protocol_refuted.
Print Assumptions C114_guard_type_refuted.
Print Assumptions C115_required_partial.
Print Assumptions C115_source_matches.
Print Assumptions C115_missing_refuted.
