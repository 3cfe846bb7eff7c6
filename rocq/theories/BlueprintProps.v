(** Reading a blueprint document (C56, C65, C67). *)
From Verif Require Import Base Chars BlueprintModel BlueprintSpec BlueprintProofs BlueprintSame BlueprintKept.
Local Open Scope list_scope.

Section Params.
Variables M L S V B RM RS RB : Type.
Variable read_meta : yaml -> option M.
Variable read_selector : yaml -> option L.
Variable read_spec : rtype -> yaml -> option S.
Variable read_vars : yaml -> option V.
Variable read_bmeta : yaml -> option B.
Variable vars_typed : V -> bool.
Variable resolve_meta : text -> option M -> option RM.
Variable resolve_spec : text -> S -> option RS.
Variable resolve_bmeta : B -> option RB.
Notation from_yaml := (from_yaml M L S V B RM RS RB read_meta read_selector read_spec read_vars read_bmeta resolve_meta resolve_spec resolve_bmeta).
Notation from_json := (from_json M L S V B RM RS RB read_meta read_selector read_spec read_vars read_bmeta vars_typed resolve_meta resolve_spec resolve_bmeta).

(** Resources of unsupported types, in any number and anywhere, do not change what a YAML
    blueprint is read as. *)
Theorem C56_yaml_ignored : forall d d', extended_many (fun _ => True) d d' -> from_yaml [d'] = from_yaml [d].
Proof.
  intros d d' H. induction H as [d|body d d' d'' Hu _ _ IH He]; [reflexivity|]. rewrite <- IH. eapply yaml_extended; eassumption.
Qed.
(** The same for JSON if each of them gives its type first and has no key the runtime does not
    read. *)
Theorem C56_json_ignored_partial : forall d d', extended_many type_first d d' -> from_json d' = from_json d.
Proof.
  intros d d' H. induction H as [d|body d d' d'' Hu Hf _ IH He]; [reflexivity|]. rewrite <- IH. eapply json_extended; eassumption.
Qed.
(** Otherwise the JSON blueprint is rejected: one key the runtime does not read, or a spec written
    before the type, in a resource of any type. *)
Theorem C56_json_rejected_refuted : forall d d' m b,
  extended (YMap m) d d' ->
  (exists key v, In (Some key, v) m /\ ~ In key resource_keys) \/
  (exists pre v post, m = pre ++ (Some (chars "spec"), v) :: post /\ forall w, ~ In (Some (chars "type"), w) pre) ->
  from_json d' <> Ok b.
Proof.
  intros d d' m b He [(key & v & Hin & Hk)|(pre & v & post & -> & Hn)].
  - eapply json_extended_bad; eauto.
  - eapply json_extended_spec_first; eauto.
Qed.
(** What is read has at least one resource, and each of them is in the document with a type the
    runtime supports: a blueprint with no such resource is rejected. *)
Theorem C56_supported_only : forall d b, from_yaml [d] = Ok b \/ from_json d = Ok b ->
  rb_res _ _ _ _ _ b <> [] /\
  forall name r, In (name, r) (rb_res _ _ _ _ _ b) ->
    exists m t, resource_in d name m /\ In (Some (chars "type"), YStr t) m /\ In t supported_types.
Proof.
  intros d b H. destruct d as [| | | | | |top]; try (destruct H as [H|H]; discriminate H).
  assert (K : exists b0, resolve_blueprint M L S V B RM RS RB resolve_meta resolve_spec resolve_bmeta b0 = Ok b /\ doc_kept M L S top (b_res M L S V B b0) /\ rb_res _ _ _ _ _ b <> []).
  { destruct H as [H|H].
    - unfold BlueprintModel.from_yaml, yaml_blueprint in H. destruct (fold_outcome _ _ top) as [x| |] eqn:E; cbn [obind] in H; try discriminate.
      apply yaml_doc_kept in E. destruct E as [Hk Ha]. destruct (b_version M L S V B x); [discriminate|]. destruct (b_res M L S V B x) as [|r0 rest] eqn:Er; [discriminate|]. cbn [obind] in H.
      exists x. split; [exact H|]. rewrite Er. split; [exact Hk|]. apply resolved_res in H. rewrite Er in H. intros X. rewrite X in H.
      discriminate (proj2 (resolve_nonempty M L S RM RS resolve_meta resolve_spec _ _ Ha H) eq_refl).
    - unfold BlueprintModel.from_json, json_blueprint in H. destruct (fold_outcome _ _ top) as [s| |] eqn:E; cbn [obind] in H; try discriminate.
      pose proof (json_doc_kept M L S V B read_meta read_selector read_spec read_vars read_bmeta top s E) as Hk.
      destruct (t_version M L S V B s) as [ver|]; [|discriminate]. destruct (t_transform M L S V B s) as [tr|]; [|discriminate]. destruct (t_res M L S V B s) as [res|]; [|discriminate]. cbn [obind] in H.
      destruct (resolve_blueprint _ _ _ _ _ _ _ _ _ _ _ _) as [rb| |] eqn:Er; cbn [obind] in H; try discriminate. unfold validate_blueprint in H.
      destruct (rb_res L V RM RS RB rb) eqn:Err; [discriminate|]. assert (rb = b) as ->. { destruct (rb_vars _ _ _ _ _ rb) as [v|]; [destruct (vars_typed v); [|discriminate]|]; congruence. }
      eexists. split; [exact Er|]. cbn [b_res]. split; [apply Hk; reflexivity|]. rewrite Err. discriminate. }
  destruct K as (b0 & Er & Hk & Hne). split; [exact Hne|]. intros name r Hr. apply resolved_res in Er.
  destruct (resolve_in M L S RM RS resolve_meta resolve_spec _ _ _ _ Er Hr) as (r0 & Hr0). destruct (Hk name r0 Hr0) as (rs & m & t & H1 & H2 & H3 & H4).
  exists m, t. split; [|auto]. exists top, rs. auto.
Qed.

(** Every supported resource of a blueprint that is accepted is there under its name.  YAML reads
    the six types of [both_types]; JSON needs the spec to be there. *)
Theorem C56_yaml_kept : forall top b name m t, NoDup (map fst top) -> from_yaml [YMap top] = Ok b ->
  resource_in (YMap top) name m -> has (chars "type") (YStr t) m -> In t both_types ->
  In name (map fst (rb_res _ _ _ _ _ b)).
Proof. intros *. apply yaml_kept_all. Qed.
Theorem C56_json_kept : forall top b rs name m t v, from_json (YMap top) = Ok b ->
  In (Some (chars "resources"), YMap rs) top -> NoDup (map fst rs) -> In (Some name, YMap m) rs ->
  has (chars "type") (YStr t) m -> In t supported_types -> In (Some (chars "spec"), v) m ->
  In name (map fst (rb_res _ _ _ _ _ b)).
Proof. intros *. apply json_kept_all. Qed.
(** A document with the six types both formats know, written with the type first, documented keys
    and a spec, is read the same in both formats. *)
Theorem C65_same_partial : forall d, plain_document d -> (forall x v, read_vars x = Some v -> vars_typed v = true) ->
  forall b, from_yaml [d] = Ok b <-> from_json d = Ok b.
Proof. intros d Hp Hv b. eapply documents_same; assumption. Qed.
(** A resource of type config, bucket, topic or queue is ignored in YAML, so a document of only
    such resources is rejected. *)
Theorem C65_types_refuted : forall d d' body t m, In t (map chars ["celerity/config"; "celerity/bucket"; "celerity/topic"; "celerity/queue"]%string) ->
  body = YMap m -> has (chars "type") (YStr t) m -> extended body d d' -> from_yaml [d'] = from_yaml [d].
Proof.
  intros d d' body t m Ht -> Hh He. destruct He as [pre rpre name rpost post]. unfold BlueprintModel.from_yaml, yaml_blueprint.
  rewrite (fold_entry _ _ (Some (chars "resources"), YMap (rpre ++ rpost))); [reflexivity|].
  intros b. unfold BlueprintModel.yaml_entry, yaml_resources. rewrite fold_skip; [reflexivity|]. intros x.
  cbn [BlueprintModel.yaml_resources_step]. unfold BlueprintModel.yaml_resource. rewrite (has_get _ _ _ Hh). cbn in Ht.
  destruct Ht as [<-|[<-|[<-|[<-|[]]]]]; reflexivity.
Qed.
(** A JSON document without a transform is always rejected; YAML does not need one. *)
Theorem C65_transform_refuted : forall top b, (forall v, ~ In (Some (chars "transform"), v) top) -> from_json (YMap top) <> Ok b.
Proof.
  intros top b Hn. unfold BlueprintModel.from_json, json_blueprint. destruct (fold_outcome _ _ top) as [s| |] eqn:E; cbn [obind]; try discriminate.
  assert (K : t_transform M L S V B s = None).
  { revert E. match goal with |- fold_outcome ?f _ _ = _ -> _ => apply (fold_inv f (fun s => t_transform M L S V B s = None)) end; [|reflexivity].
    clear s. intros s [key v] s' Hin HI H. unfold BlueprintModel.json_entry in H. cbn [fst snd] in H. destruct key as [key|]; [|discriminate]. unfold once in H.
    destruct (text_eqb key (chars "version")). { destruct (t_version _ _ _ _ _ s); [discriminate|]. destruct v as [t| | | | | |]; try discriminate. destruct (text_eqb t version_text); [|discriminate]. injection H as <-. exact HI. }
    destruct (text_eqb key (chars "transform")) eqn:Et. { apply text_eqb_eq in Et. subst. elim (Hn v Hin). }
    destruct (text_eqb key (chars "variables")). { destruct (t_vars _ _ _ _ _ s); [discriminate|]. destruct (optional _ v); cbn [obind] in H; try discriminate. injection H as <-. exact HI. }
    destruct (text_eqb key (chars "resources")). { destruct (t_res _ _ _ _ _ s); [discriminate|]. destruct (json_resources _ _ _ _ _ _ v); cbn [obind] in H; try discriminate. injection H as <-. exact HI. }
    destruct (text_eqb key (chars "metadata")). { destruct (t_meta _ _ _ _ _ s); [discriminate|]. destruct (optional _ v); cbn [obind] in H; try discriminate. injection H as <-. exact HI. }
    injection H as <-. exact HI. }
  rewrite K. destruct (t_version M L S V B s); discriminate.
Qed.
Lemma bind_ok {A C E} (o : outcome E A) (f : A -> outcome E C) b : obind o f = Ok b -> exists a, o = Ok a /\ f a = Ok b.
Proof. destruct o as [a| |]; cbn; try discriminate. intros H. now exists a. Qed.
(** A list of transforms is kept in JSON and lost in YAML. *)
Theorem C65_transform_list_refuted : forall pre post ts,
  from_yaml [YMap (pre ++ (Some (chars "transform"), YSeq (map YStr ts)) :: post)] = from_yaml [YMap (pre ++ post)] /\
  (forall b, from_json (YMap (pre ++ (Some (chars "transform"), YSeq (map YStr ts)) :: post)) = Ok b -> rb_transform _ _ _ _ _ b = Some ts).
Proof.
  intros pre post ts. split.
  - unfold BlueprintModel.from_yaml, yaml_blueprint. rewrite fold_skip; [reflexivity|]. intros x. reflexivity.
  - intros b H. unfold BlueprintModel.from_json, json_blueprint in H. apply bind_ok in H. destruct H as (b0 & H & Hr). apply bind_ok in H. destruct H as (s & Hs & H).
    assert (K : t_transform M L S V B s = Some ts).
    { rewrite fold_app in Hs. apply bind_ok in Hs. destruct Hs as (s0 & _ & Hs). cbn [fold_outcome] in Hs. apply bind_ok in Hs. destruct Hs as (s1 & E & Hs).
      assert (K1 : t_transform M L S V B s1 = Some ts).
      { unfold BlueprintModel.json_entry in E. cbn [fst snd] in E. change (text_eqb (chars "transform") (chars "version")) with false in E. change (text_eqb (chars "transform") (chars "transform")) with true in E.
        cbn iota in E. unfold once in E. destruct (t_transform M L S V B s0); [discriminate|]. unfold json_transform in E.
        assert (Ht : texts (map YStr ts) = Some ts) by (clear; induction ts as [|t ts IH]; cbn; [reflexivity|now rewrite IH]). rewrite Ht in E. cbn [need obind] in E. now injection E as <-. }
      revert Hs. match goal with |- fold_outcome ?f _ _ = _ -> _ => apply (fold_inv f (fun s => t_transform M L S V B s = Some ts)) end; [|exact K1].
      clear. intros s [key v] s' Hin HI H. unfold BlueprintModel.json_entry in H. cbn [fst snd] in H. destruct key as [key|]; [|discriminate]. unfold once in H.
      destruct (text_eqb key (chars "version")). { destruct (t_version _ _ _ _ _ s); [discriminate|]. destruct v as [t| | | | | |]; try discriminate. destruct (text_eqb t version_text); [|discriminate]. injection H as <-. exact HI. }
      destruct (text_eqb key (chars "transform")). { rewrite HI in H. discriminate. }
      destruct (text_eqb key (chars "variables")). { destruct (t_vars _ _ _ _ _ s); [discriminate|]. destruct (optional _ v); cbn [obind] in H; try discriminate. injection H as <-. exact HI. }
      destruct (text_eqb key (chars "resources")). { destruct (t_res _ _ _ _ _ s); [discriminate|]. destruct (json_resources _ _ _ _ _ _ v); cbn [obind] in H; try discriminate. injection H as <-. exact HI. }
      destruct (text_eqb key (chars "metadata")). { destruct (t_meta _ _ _ _ _ s); [discriminate|]. destruct (optional _ v); cbn [obind] in H; try discriminate. injection H as <-. exact HI. }
      injection H as <-. exact HI. }
    rewrite K in H. destruct (t_version M L S V B s); [|discriminate]. destruct (t_res M L S V B s); [|discriminate]. injection H as <-.
    apply bind_ok in Hr. destruct Hr as (r & Hr & Hv). unfold resolve_blueprint in Hr. cbn [b_res b_meta b_version b_transform b_vars] in Hr. apply bind_ok in Hr. destruct Hr as (rs & _ & Hr).
    assert (Kr : rb_transform _ _ _ _ _ r = Some ts) by (destruct (flatten _) as [y|]; [destruct (resolve_bmeta y); [|discriminate]|]; injection Hr as <-; reflexivity).
    unfold validate_blueprint in Hv. destruct (rb_res _ _ _ _ _ r); [discriminate|]. destruct (rb_vars _ _ _ _ _ r) as [v|]; [destruct (vars_typed v); [|discriminate]|]; injection Hv as <-; exact Kr.
Qed.
(** Metadata without a shared handler configuration is absent in YAML; in JSON it is there and empty. *)
Theorem C65_metadata_refuted : forall pre post m, (forall w, ~ In (Some (chars "sharedHandlerConfig"), YMap w) m) ->
  from_yaml [YMap (pre ++ (Some (chars "metadata"), YMap m) :: post)] = from_yaml [YMap (pre ++ post)] /\
  (forall b, from_json (YMap (pre ++ (Some (chars "metadata"), YMap m) :: post)) = Ok b -> rb_meta _ _ _ _ _ b <> None).
Proof.
  intros pre post m Hm. split.
  - unfold BlueprintModel.from_yaml, yaml_blueprint. rewrite fold_skip; [reflexivity|]. intros x. unfold BlueprintModel.yaml_entry.
    change (text_eqb (chars "metadata") (chars "variables")) with false. change (text_eqb (chars "metadata") (chars "resources")) with false. change (text_eqb (chars "metadata") (chars "metadata")) with true. cbn iota.
    destruct (sets_shared m) eqn:E; [|reflexivity]. apply existsb_exists in E. destruct E as ([[key|] v] & Hin & E); [|discriminate].
    destruct v as [| | | | | |w]; try discriminate. apply text_eqb_eq in E. subst key. elim (Hm w Hin).
  - intros b H. unfold BlueprintModel.from_json, json_blueprint in H. apply bind_ok in H. destruct H as (b0 & H & Hr). apply bind_ok in H. destruct H as (s & Hs & H).
    assert (K : exists x, t_meta M L S V B s = Some (Some x)).
    { rewrite fold_app in Hs. apply bind_ok in Hs. destruct Hs as (s0 & _ & Hs). cbn [fold_outcome] in Hs. apply bind_ok in Hs. destruct Hs as (s1 & E & Hs).
      assert (K1 : exists x, t_meta M L S V B s1 = Some (Some x)).
      { unfold BlueprintModel.json_entry in E. cbn [fst snd] in E. change (text_eqb (chars "metadata") (chars "version")) with false in E. change (text_eqb (chars "metadata") (chars "transform")) with false in E.
        change (text_eqb (chars "metadata") (chars "variables")) with false in E. change (text_eqb (chars "metadata") (chars "resources")) with false in E. change (text_eqb (chars "metadata") (chars "metadata")) with true in E.
        cbn iota in E. unfold once in E. destruct (t_meta M L S V B s0); [discriminate|]. unfold optional in E. destruct (read_bmeta (YMap m)) as [x|]; cbn [need omap obind] in E; [|discriminate]. injection E as <-. now exists x. }
      revert Hs. match goal with |- fold_outcome ?f _ _ = _ -> _ => apply (fold_inv f (fun s => exists x, t_meta M L S V B s = Some (Some x))) end; [|exact K1].
      clear. intros s [key v] s' Hin HI H. unfold BlueprintModel.json_entry in H. cbn [fst snd] in H. destruct key as [key|]; [|discriminate]. unfold once in H.
      destruct (text_eqb key (chars "version")). { destruct (t_version _ _ _ _ _ s); [discriminate|]. destruct v as [t| | | | | |]; try discriminate. destruct (text_eqb t version_text); [|discriminate]. injection H as <-. exact HI. }
      destruct (text_eqb key (chars "transform")). { destruct (t_transform _ _ _ _ _ s); [discriminate|]. destruct (json_transform v); cbn [obind] in H; try discriminate. injection H as <-. exact HI. }
      destruct (text_eqb key (chars "variables")). { destruct (t_vars _ _ _ _ _ s); [discriminate|]. destruct (optional _ v); cbn [obind] in H; try discriminate. injection H as <-. exact HI. }
      destruct (text_eqb key (chars "resources")). { destruct (t_res _ _ _ _ _ s); [discriminate|]. destruct (json_resources _ _ _ _ _ _ v); cbn [obind] in H; try discriminate. injection H as <-. exact HI. }
      destruct (text_eqb key (chars "metadata")). { destruct HI as (x & HI). rewrite HI in H. discriminate. }
      injection H as <-. exact HI. }
    destruct K as (x & K). rewrite K in H. destruct (t_version M L S V B s); [|discriminate]. destruct (t_transform M L S V B s); [|discriminate]. destruct (t_res M L S V B s); [|discriminate]. injection H as <-.
    apply bind_ok in Hr. destruct Hr as (r & Hr & Hv). unfold resolve_blueprint in Hr. cbn [b_res b_meta b_version b_transform b_vars flatten] in Hr. apply bind_ok in Hr. destruct Hr as (rs & _ & Hr).
    assert (Kr : rb_meta _ _ _ _ _ r <> None) by (destruct (resolve_bmeta x); [|discriminate]; injection Hr as <-; discriminate).
    unfold validate_blueprint in Hv. destruct (rb_res _ _ _ _ _ r); [discriminate|]. destruct (rb_vars _ _ _ _ _ r) as [v|]; [destruct (vars_typed v); [|discriminate]|]; injection Hv as <-; exact Kr.
Qed.

(** Reading a document never panics. *)
Theorem C67_document_read : forall d, from_yaml [d] <> Panic /\ from_json d <> Panic.
Proof.
  assert (FP : forall {A X} (f : X -> A -> outcome berr X) l x, (forall y e, f y e <> Panic) -> fold_outcome f x l <> Panic).
  { intros A X f l. induction l as [|a l IH]; intros x H; cbn [fold_outcome]; [discriminate|]. pose proof (H x a) as Hx. destruct (f x a); cbn [obind]; [apply IH, H|discriminate|now elim Hx]. }
  assert (RP : forall rs, BlueprintModel.resolve_resources M L S RM RS resolve_meta resolve_spec rs <> Panic).
  { induction rs as [|[n r] rs IH]; cbn; [discriminate|]. destruct (resolve_meta n _); [|discriminate]. destruct (r_spec M L S r); [|exact IH]. destruct (resolve_spec n s); [|discriminate].
    destruct (BlueprintModel.resolve_resources _ _ _ _ _ _ _ rs); [discriminate|discriminate|now elim IH]. }
  assert (BP : forall b, resolve_blueprint M L S V B RM RS RB resolve_meta resolve_spec resolve_bmeta b <> Panic).
  { intros b. unfold resolve_blueprint. pose proof (RP (b_res M L S V B b)) as H. destruct (BlueprintModel.resolve_resources _ _ _ _ _ _ _ _); cbn [obind]; [|discriminate|now elim H].
    destruct (b_meta M L S V B b) as [y|]; [destruct (resolve_bmeta y)|]; discriminate. }
  assert (YF : forall y e, yaml_field M L S read_meta read_selector read_spec y e <> Panic).
  { intros y e. unfold yaml_field, need. repeat (match goal with |- context [match ?z with _ => _ end] => destruct z end; cbn [obind]; try discriminate). }
  assert (JF : forall y e, json_field M L S read_meta read_selector read_spec y e <> Panic).
  { intros y e. unfold json_field, need. destruct (field_of (fst e)) as [[]|]; try discriminate; repeat (match goal with |- context [match ?z with _ => _ end] => destruct z end; cbn [obind]; try discriminate). }
  assert (YR : forall m, yaml_resource M L S read_meta read_selector read_spec m <> Panic).
  { intros m. unfold yaml_resource. destruct (get (chars "type") m) as [[t| | | | | |]|]; try discriminate.
    assert (yaml_type t <> Panic) by (unfold yaml_type; repeat (destruct (text_eqb _ _); [discriminate|]); discriminate). destruct (yaml_type t) as [ty| |]; cbn [obind]; try discriminate; [|contradiction].
    match goal with |- obind (fold_outcome ?f ?x ?l) _ <> _ => pose proof (FP _ _ f l x YF) as H1; destruct (fold_outcome f x l) as [r| |] end; cbn [obind]; [destruct (r_spec M L S r); discriminate|discriminate|contradiction]. }
  assert (JR : forall m, json_resource M L S read_meta read_selector read_spec m <> Panic).
  { intros m. unfold json_resource. match goal with |- obind (fold_outcome ?f ?x ?l) _ <> _ => pose proof (FP _ _ f l x JF) as H1; destruct (fold_outcome f x l) as [s| |] end; cbn [obind]; [|discriminate|contradiction].
    destruct (j_unsup M L S s); [discriminate|]. destruct (j_type M L S s); discriminate. }
  assert (YS : forall y e, yaml_resources_step M L S read_meta read_selector read_spec y e <> Panic).
  { intros y [[name|] v]; [|discriminate]. destruct v as [| | | | | |m]; try discriminate. cbn. specialize (YR m). destruct (yaml_resource _ _ _ _ _ _ m) as [r|[]|]; try discriminate. contradiction. }
  assert (JS : forall y e, json_resources_step M L S read_meta read_selector read_spec y e <> Panic).
  { intros y [[name|] v]; [|discriminate]. destruct v as [| | | | | |m]; try discriminate. cbn. specialize (JR m). destruct (json_resource _ _ _ _ _ _ m) as [r|[]|]; try discriminate. contradiction. }
  intros d. split.
  - unfold BlueprintModel.from_yaml, yaml_blueprint. destruct d as [| | | | | |m]; try discriminate.
    match goal with |- obind (obind (fold_outcome ?f ?x ?l) _) _ <> _ => assert (H : fold_outcome f x l <> Panic) end.
    { apply FP. intros y [[key|] v]; [|discriminate]. unfold yaml_entry. destruct v as [t| | | | | |m']; try discriminate.
      - destruct (text_eqb key (chars "version")); [destruct (text_eqb t version_text)|destruct (text_eqb key (chars "transform"))]; discriminate.
      - unfold need. destruct (text_eqb key (chars "variables")); [destruct (read_vars (YMap m')); discriminate|]. destruct (text_eqb key (chars "resources")).
        + pose proof (FP _ _ _ m' [] YS) as H1. unfold yaml_resources. destruct (fold_outcome _ _ m'); [discriminate|discriminate|contradiction].
        + destruct (text_eqb key (chars "metadata")); [destruct (sets_shared m'); [destruct (read_bmeta (YMap m'))|]|]; discriminate. }
    destruct (fold_outcome _ _ m) as [b| |]; cbn [obind]; [|discriminate|contradiction]. destruct (b_version M L S V B b); [discriminate|]. destruct (b_res M L S V B b); [discriminate|]. apply BP.
  - unfold BlueprintModel.from_json, json_blueprint. destruct d as [| | | | | |m]; try discriminate.
    match goal with |- obind (obind (fold_outcome ?f ?x ?l) _) _ <> _ => assert (H : fold_outcome f x l <> Panic) end.
    { apply FP. intros y [key v]. unfold json_entry, once. cbn [fst snd]. destruct key as [key|]; [|discriminate].
      assert (OP : forall {A} (rd : yaml -> option A), optional rd v <> Panic). { intros A rd. unfold optional, need. destruct v; try discriminate; match goal with |- context [rd ?z] => destruct (rd z) end; discriminate. }
      destruct (text_eqb key (chars "version")). { destruct (t_version _ _ _ _ _ y); [discriminate|]. destruct v as [t| | | | | |]; try discriminate. destruct (text_eqb t version_text); discriminate. }
      destruct (text_eqb key (chars "transform")). { destruct (t_transform _ _ _ _ _ y); [discriminate|]. unfold json_transform, need. destruct v as [t| | | | |l|]; try discriminate. destruct (texts l); discriminate. }
      destruct (text_eqb key (chars "variables")). { destruct (t_vars _ _ _ _ _ y); [discriminate|]. pose proof (OP _ read_vars). destruct (optional read_vars v); [discriminate|discriminate|contradiction]. }
      destruct (text_eqb key (chars "resources")). { destruct (t_res _ _ _ _ _ y); [discriminate|]. unfold json_resources. destruct v as [| | | | | |m']; try discriminate. pose proof (FP _ _ _ m' [] JS) as H1. destruct (fold_outcome _ _ m'); [discriminate|discriminate|contradiction]. }
      destruct (text_eqb key (chars "metadata")). { destruct (t_meta _ _ _ _ _ y); [discriminate|]. pose proof (OP _ read_bmeta). destruct (optional read_bmeta v); [discriminate|discriminate|contradiction]. }
      discriminate. }
    destruct (fold_outcome _ _ m) as [s| |]; cbn [obind]; [|discriminate|contradiction].
    destruct (t_version M L S V B s); [|discriminate]. destruct (t_transform M L S V B s); [|discriminate]. destruct (t_res M L S V B s); [|discriminate]. cbn [obind].
    match goal with |- context [resolve_blueprint _ _ _ _ _ _ _ _ _ _ _ ?b] => pose proof (BP b) as H2; destruct (resolve_blueprint M L S V B RM RS RB resolve_meta resolve_spec resolve_bmeta b) as [rb| |] end; cbn [obind]; [|discriminate|contradiction].
    unfold validate_blueprint. destruct (rb_res _ _ _ _ _ rb); [discriminate|]. destruct (rb_vars _ _ _ _ _ rb) as [v|]; [destruct (vars_typed v)|]; discriminate.
Qed.
(** But a YAML text with no document in it (an empty file, or only comments) makes the reader
    panic. *)
Theorem C67_empty_yaml_refuted : from_yaml [] = Panic.
Proof. reflexivity. Qed.
End Params.

(** A concrete pair of documents *)
Definition sample_read : yaml -> option yaml := Some.
Definition sample_yaml := from_yaml yaml yaml yaml yaml yaml (option yaml) yaml yaml sample_read sample_read (fun _ v => Some v) sample_read sample_read (fun _ m => Some m) (fun _ s => Some s) Some.
Definition sample_json := from_json yaml yaml yaml yaml yaml (option yaml) yaml yaml sample_read sample_read (fun _ v => Some v) sample_read sample_read (fun _ => true) (fun _ m => Some m) (fun _ s => Some s) Some.
Definition sample_handler : yaml := YMap [(Some (chars "type"), YStr (chars "celerity/handler")); (Some (chars "spec"), YMap [(Some (chars "timeout"), YInt 5)])].
Definition sample_function : yaml := YMap [(Some (chars "type"), YStr (chars "aws/lambda/function")); (Some (chars "spec"), YMap [])].
Definition sample_queue : yaml := YMap [(Some (chars "type"), YStr (chars "celerity/queue")); (Some (chars "spec"), YMap [])].
Definition sample_doc (rs : list (option text * yaml)) : yaml :=
  YMap [(Some (chars "version"), YStr (chars "2025-05-12")); (Some (chars "transform"), YStr (chars "celerity-2025-08-01")); (Some (chars "resources"), YMap rs)].
Lemma sample_extended : extended_many type_first (sample_doc [(Some (chars "h"), sample_handler)]) (sample_doc [(Some (chars "f"), sample_function); (Some (chars "h"), sample_handler)]).
Proof.
  eapply em_more; [| |apply em_none|].
  - exists [(Some (chars "type"), YStr (chars "aws/lambda/function")); (Some (chars "spec"), YMap [])], (chars "aws/lambda/function"). split; [reflexivity|].
    split; [exists [], [(Some (chars "spec"), YMap [])]; split; [reflexivity|intros w []]|]. vm_compute. intros H. repeat destruct H as [H|H]; try discriminate; exact H.
  - exists (chars "aws/lambda/function"), [(Some (chars "spec"), YMap [])]. split; [reflexivity|]. intros key v [H|[]]. injection H as <- <-. exists (chars "spec"). split; [reflexivity|]. vm_compute. tauto.
  - apply (ext_intro sample_function [(Some (chars "version"), YStr (chars "2025-05-12")); (Some (chars "transform"), YStr (chars "celerity-2025-08-01"))] [] (chars "f") [(Some (chars "h"), sample_handler)] []).
Qed.
Example C56_nonvacuous :
  (exists b, sample_yaml [sample_doc [(Some (chars "f"), sample_function); (Some (chars "h"), sample_handler)]] = Ok b /\ length (rb_res _ _ _ _ _ b) = 1) /\
  (exists b, sample_json (sample_doc [(Some (chars "f"), sample_function); (Some (chars "h"), sample_handler)]) = Ok b /\ length (rb_res _ _ _ _ _ b) = 1) /\
  sample_yaml [sample_doc [(Some (chars "f"), sample_function)]] = Err EFormat /\
  sample_json (sample_doc [(Some (chars "f"), sample_function)]) = Err EFormat /\
  (* the same resource with a key the runtime does not read *)
  sample_json (sample_doc [(Some (chars "f"), YMap [(Some (chars "type"), YStr (chars "aws/sqs/queue")); (Some (chars "dependsOn"), YStr (chars "h"))]); (Some (chars "h"), sample_handler)]) = Err EFormat /\
  (exists b, sample_yaml [sample_doc [(Some (chars "f"), YMap [(Some (chars "type"), YStr (chars "aws/sqs/queue")); (Some (chars "dependsOn"), YStr (chars "h"))]); (Some (chars "h"), sample_handler)]] = Ok b).
Proof.
  split; [eexists; split; vm_compute; reflexivity|]. split; [eexists; split; vm_compute; reflexivity|]. split; [vm_compute; reflexivity|]. split; [vm_compute; reflexivity|].
  split; [vm_compute; reflexivity|]. eexists. vm_compute. reflexivity.
Qed.
Example C65_nonvacuous :
  plain_document (sample_doc [(Some (chars "h"), sample_handler)]) /\
  (* a queue is kept in JSON and ignored in YAML *)
  (exists b, sample_json (sample_doc [(Some (chars "q"), sample_queue); (Some (chars "h"), sample_handler)]) = Ok b /\ length (rb_res _ _ _ _ _ b) = 2) /\
  (exists b, sample_yaml [sample_doc [(Some (chars "q"), sample_queue); (Some (chars "h"), sample_handler)]] = Ok b /\ length (rb_res _ _ _ _ _ b) = 1) /\
  sample_yaml [sample_doc [(Some (chars "q"), sample_queue)]] = Err EFormat /\
  (* no transform *)
  (exists b, sample_yaml [YMap [(Some (chars "version"), YStr (chars "2025-05-12")); (Some (chars "resources"), YMap [(Some (chars "h"), sample_handler)])]] = Ok b) /\
  (* a resource without a spec is rejected in YAML and ignored in JSON *)
  sample_yaml [sample_doc [(Some (chars "n"), YMap [(Some (chars "type"), YStr (chars "celerity/handler"))]); (Some (chars "h"), sample_handler)]] = Err EFormat /\
  (exists b, sample_json (sample_doc [(Some (chars "n"), YMap [(Some (chars "type"), YStr (chars "celerity/handler"))]); (Some (chars "h"), sample_handler)]) = Ok b /\ length (rb_res _ _ _ _ _ b) = 1).
Proof.
  split.
  { exists [(Some (chars "version"), YStr (chars "2025-05-12")); (Some (chars "transform"), YStr (chars "celerity-2025-08-01")); (Some (chars "resources"), YMap [(Some (chars "h"), sample_handler)])].
    split; [reflexivity|]. split.
    { split; [|vm_compute; intros H; repeat destruct H as [H|H]; try discriminate; exact H].
      repeat (constructor; [vm_compute; intros H; repeat destruct H as [H|H]; try discriminate; exact H|]). constructor. }
    split; [eexists; right; left; reflexivity|]. split; [eexists; left; reflexivity|]. split; [eexists; right; right; left; reflexivity|].
    intros key v Hin. destruct Hin as [H|[H|[H|[]]]]; injection H as <- <-.
    - left. split; [now left|eauto].
    - left. split; [right; now left|eauto].
    - right; right; right. split; [reflexivity|]. exists [(Some (chars "h"), sample_handler)]. split; [reflexivity|]. split.
      { split; [constructor; [intros []|constructor]|intros [H|[]]; discriminate]. }
      intros name body [H|[]]. injection H as <- <-. exists (chars "celerity/handler"), [(Some (chars "spec"), YMap [(Some (chars "timeout"), YInt 5)])]. split; [reflexivity|].
      split; [vm_compute; tauto|]. split.
      { split; [|vm_compute; intros H; repeat destruct H as [H|H]; try discriminate; exact H].
        repeat (constructor; [vm_compute; intros H; repeat destruct H as [H|H]; try discriminate; exact H|]). constructor. }
      split; [|eexists; left; reflexivity]. intros key v [H|[]]. injection H as <- <-. right. split; [right; now left|eauto]. }
  split; [eexists; split; vm_compute; reflexivity|]. split; [eexists; split; vm_compute; reflexivity|]. split; [vm_compute; reflexivity|].
  split; [eexists; vm_compute; reflexivity|]. split; [vm_compute; reflexivity|]. eexists; split; vm_compute; reflexivity.
Qed.

Definition sample_with (key : string) (v : yaml) : yaml :=
  YMap [(Some (chars "version"), YStr (chars "2025-05-12")); (Some (chars key), v); (Some (chars "resources"), YMap [(Some (chars "h"), sample_handler)])].
Example C65_lost_nonvacuous :
  (exists b, sample_json (sample_with "transform" (YSeq (map YStr [chars "a"; chars "b"]))) = Ok b) /\
  (exists b, sample_yaml [sample_with "transform" (YSeq (map YStr [chars "a"; chars "b"]))] = Ok b /\ rb_transform _ _ _ _ _ b = None) /\
  (exists b, sample_yaml [sample_with "metadata" (YMap [(Some (chars "owner"), YStr (chars "me"))])] = Ok b /\ rb_meta _ _ _ _ _ b = None) /\
  (exists b, sample_json (YMap [(Some (chars "version"), YStr (chars "2025-05-12")); (Some (chars "transform"), YStr (chars "t")); (Some (chars "metadata"), YMap [(Some (chars "owner"), YStr (chars "me"))]);
     (Some (chars "resources"), YMap [(Some (chars "h"), sample_handler)])]) = Ok b).
Proof.
  split; [eexists; vm_compute; reflexivity|]. split; [eexists; split; [vm_compute; reflexivity|reflexivity]|].
  split; [eexists; split; [vm_compute; reflexivity|reflexivity]|]. eexists; vm_compute; reflexivity.
Qed.

Print Assumptions C56_yaml_ignored.
Print Assumptions C56_json_ignored_partial.
Print Assumptions C56_json_rejected_refuted.
Print Assumptions C56_yaml_kept.
Print Assumptions C56_json_kept.
Print Assumptions C56_supported_only.
Print Assumptions C65_same_partial.
Print Assumptions C65_types_refuted.
Print Assumptions C65_transform_refuted.
Print Assumptions C65_transform_list_refuted.
Print Assumptions C65_metadata_refuted.
Print Assumptions C67_document_read.
Print Assumptions C67_empty_yaml_refuted.
