(** Supported resources are kept. *)
From Verif Require Import Base Chars BlueprintModel BlueprintSpec BlueprintProofs BlueprintSame.
Local Open Scope list_scope.

Section Params.
Variables M L S V B RM RS RB : Type.
Variable read_meta : yaml -> option M.
Variable read_selector : yaml -> option L.
Variable read_spec : rtype -> yaml -> option S.
Variable read_vars : yaml -> option V.
Variable read_bmeta : yaml -> option B.
Variable vars_typed : V -> bool.
Variable resolve_meta : text -> option M -> option RM.
Variable resolve_spec : text -> S -> option RS.
Variable resolve_bmeta : B -> option RB.
Notation yaml_resource := (yaml_resource M L S read_meta read_selector read_spec).
Notation json_resource := (json_resource M L S read_meta read_selector read_spec).
Notation ystep := (yaml_resources_step M L S read_meta read_selector read_spec).
Notation jstep := (json_resources_step M L S read_meta read_selector read_spec).
Notation yaml_field := (yaml_field M L S read_meta read_selector read_spec).
Notation json_field := (json_field M L S read_meta read_selector read_spec).
Notation yaml_entry := (yaml_entry M L S V B read_meta read_selector read_spec read_vars read_bmeta).
Notation json_entry := (json_entry M L S V B read_meta read_selector read_spec read_vars read_bmeta).
Notation from_yaml := (from_yaml M L S V B RM RS RB read_meta read_selector read_spec read_vars read_bmeta resolve_meta resolve_spec resolve_bmeta).
Notation from_json := (from_json M L S V B RM RS RB read_meta read_selector read_spec read_vars read_bmeta vars_typed resolve_meta resolve_spec resolve_bmeta).
Notation resolve_resources := (resolve_resources M L S RM RS resolve_meta resolve_spec).

Lemma put_name {A} k (v : A) m n : In n (map fst m) \/ n = k <-> In n (map fst (put k v m)).
Proof.
  unfold put. rewrite map_app, in_app_iff. cbn [map fst]. split.
  - intros [H| ->]; [|right; now left]. destruct (text_eqb n k) eqn:E; [apply text_eqb_eq in E; subst; right; now left|].
    left. rewrite in_map_iff in H |- *. destruct H as ([n' v'] & <- & Hin). exists (n', v'). split; [reflexivity|]. apply filter_In. split; [exact Hin|]. cbn [fst] in *. now rewrite E.
  - intros [H|[<-|[]]]; [|now right]. left. rewrite in_map_iff in H |- *. destruct H as (e & <- & Hin). apply filter_In in Hin. exists e. tauto.
Qed.
Definition kept_with_spec (name : text) (res : list (text * resource M L S)) : Prop :=
  exists r, In (name, r) res /\ r_spec M L S r <> None.
Lemma put_kept k r res name : In (k, r) (put k r res) /\ (name <> k -> kept_with_spec name res -> kept_with_spec name (put k r res)).
Proof.
  split; [unfold put; apply in_or_app; right; now left|]. intros Hn (x & Hx & Hs). exists x. split; [|exact Hs]. unfold put. apply in_or_app. left. apply filter_In. split; [exact Hx|].
  cbn [fst]. now rewrite eqb_no.
Qed.

Lemma yaml_not_unsupported m t : has (chars "type") (YStr t) m -> In t both_types -> yaml_resource m <> Err EUnsupported.
Proof.
  intros Hh Ht. unfold BlueprintModel.yaml_resource. rewrite (has_get _ _ _ Hh). destruct (both_types_same t Ht) as (ty & -> & _). cbn [obind].
  assert (K : forall l r, fold_outcome yaml_field r l <> Err EUnsupported).
  { induction l as [|c l IH]; intros r E; [discriminate|]. cbn [fold_outcome] in E.
    destruct (yaml_field r c) as [y|z|] eqn:E1; cbn [obind] in E; [eapply IH; exact E| |discriminate]. injection E as ->. revert E1. unfold BlueprintModel.yaml_field, need.
    repeat (match goal with |- context [match ?y with _ => _ end] => destruct y end; cbn [obind]; try discriminate). }
  match goal with |- obind (fold_outcome _ ?r0 m) _ <> _ => specialize (K m r0); destruct (fold_outcome yaml_field r0 m) as [r|e|] end; cbn [obind]; [destruct (r_spec M L S r); discriminate|congruence|discriminate].
Qed.
Lemma yaml_names rs : forall x res name, fold_outcome ystep x rs = Ok res ->
  In name (map fst x) \/ (exists m t, In (Some name, YMap m) rs /\ has (chars "type") (YStr t) m /\ In t both_types) -> In name (map fst res).
Proof.
  induction rs as [|[key v] rs IH]; intros x res name H Hn; cbn [fold_outcome] in H.
  - injection H as <-. destruct Hn as [Hn|(m & t & [] & _)]. exact Hn.
  - destruct (ystep x (key, v)) as [y|e|] eqn:E; cbn [obind] in H; try discriminate. apply (IH y res name H).
    destruct Hn as [Hn|(m & t & [Hin|Hin] & Hh & Ht)].
    + left. unfold BlueprintModel.yaml_resources_step in E. destruct key as [k|]; [|injection E as <-; exact Hn]. destruct v as [| | | | | |m]; try (injection E as <-; exact Hn).
      destruct (yaml_resource m) as [r|[]|]; try discriminate; injection E as <-; [|exact Hn]. apply put_name. now left.
    + left. injection Hin as -> ->. cbn [BlueprintModel.yaml_resources_step] in E. pose proof (yaml_not_unsupported m t Hh Ht) as K.
      destruct (yaml_resource m) as [r|[]|]; try discriminate; [|now elim K]. injection E as <-. apply put_name. now right.
    + right. exists m, t. auto.
Qed.
Lemma resolve_names rs : forall out name, resolve_resources rs = Ok out -> kept_with_spec name rs -> In name (map fst out).
Proof.
  induction rs as [|[n r0] rs IH]; intros out name H (r & Hin & Hs); cbn [BlueprintModel.resolve_resources] in H; [destruct Hin|].
  destruct (resolve_meta n _); [|discriminate]. destruct Hin as [Hin|Hin].
  - injection Hin as -> ->. destruct (r_spec M L S r); [|now elim Hs]. destruct (resolve_spec name s); [|discriminate].
    destruct (resolve_resources rs) as [l| |]; cbn [obind] in H; try discriminate. injection H as <-. now left.
  - assert (K : kept_with_spec name rs) by (now exists r). destruct (r_spec M L S r0); [|exact (IH _ _ H K)]. destruct (resolve_spec n s); [|discriminate].
    destruct (resolve_resources rs) as [l| |] eqn:E; cbn [obind] in H; try discriminate. injection H as <-. right. apply (IH l name eq_refl K).
Qed.
Lemma yaml_top_res top : forall b b', fold_outcome yaml_entry b top = Ok b' ->
  (forall v, In (Some (chars "resources"), v) top -> False) -> b_res M L S V B b' = b_res M L S V B b.
Proof.
  induction top as [|[key v] top IH]; intros b b' H Hn; cbn [fold_outcome] in H; [injection H as <-; reflexivity|].
  destruct (yaml_entry b (key, v)) as [c|e|] eqn:E; cbn [obind] in H; try discriminate. rewrite (IH c b' H ltac:(intros w Hw; apply (Hn w); now right)).
  unfold BlueprintModel.yaml_entry in E. destruct key as [key|]; [|injection E as <-; reflexivity].
  destruct v as [t| | | | | |m]; try (injection E as <-; reflexivity).
  - destruct (text_eqb key (chars "version")); [destruct (text_eqb t version_text); [|discriminate]|destruct (text_eqb key (chars "transform"))]; injection E as <-; reflexivity.
  - destruct (text_eqb key (chars "variables")); [destruct (read_vars (YMap m)); cbn [need obind] in E; [|discriminate]; injection E as <-; reflexivity|].
    destruct (text_eqb key (chars "resources")) eqn:Er; [apply text_eqb_eq in Er; subst; elim (Hn (YMap m)); now left|].
    destruct (text_eqb key (chars "metadata")); [destruct (sets_shared m); [destruct (read_bmeta (YMap m)); cbn [need obind] in E; [|discriminate]|]|]; injection E as <-; reflexivity.
Qed.
Lemma yaml_kept_all top b name m t : NoDup (map fst top) -> from_yaml [YMap top] = Ok b -> resource_in (YMap top) name m ->
  has (chars "type") (YStr t) m -> In t both_types -> In name (map fst (rb_res _ _ _ _ _ b)).
Proof.
  intros Hd H (top' & rs & Et & Hr & Hin) Hh Ht. injection Et as <-. unfold BlueprintModel.from_yaml, yaml_blueprint in H.
  destruct (fold_outcome yaml_entry _ top) as [x| |] eqn:E; cbn [obind] in H; try discriminate.
  pose proof (yaml_doc_kept _ _ _ _ _ _ _ _ _ _ _ _ E) as [_ Ha].
  assert (K : In name (map fst (b_res M L S V B x))).
  { apply in_split in Hr. destruct Hr as (pre & post & ->). rewrite fold_app in E. destruct (fold_outcome yaml_entry _ pre) as [y| |]; cbn [obind fold_outcome] in E; try discriminate.
    destruct (yaml_entry y (Some (chars "resources"), YMap rs)) as [z| |] eqn:E1; cbn [obind] in E; try discriminate. rewrite (yaml_top_res post z x E).
    - change (yaml_entry y (Some (chars "resources"), YMap rs)) with
        (let! l := yaml_resources M L S read_meta read_selector read_spec rs in Ok {| b_version := b_version M L S V B y; b_transform := b_transform M L S V B y; b_vars := b_vars M L S V B y; b_res := l; b_meta := b_meta M L S V B y |}) in E1.
      unfold yaml_resources in E1. destruct (fold_outcome ystep [] rs) as [l| |] eqn:E2; cbn [obind] in E1; try discriminate. injection E1 as <-. cbn [b_res].
      apply (yaml_names rs [] l name E2). right. exists m, t. auto.
    - intros v Hv. rewrite map_app in Hd. apply NoDup_remove_2 in Hd. apply Hd. apply in_or_app. right. apply (in_map fst) in Hv. exact Hv. }
  destruct (b_version M L S V B x); [discriminate|]. destruct (b_res M L S V B x) eqn:Er; [discriminate|]. rewrite <- Er in *. cbn [obind] in H. apply resolved_res in H.
  apply (resolve_names _ _ _ H). apply in_map_iff in K. destruct K as ([n1 r] & <- & Hr'). exists r. split; [exact Hr'|exact (Ha _ _ Hr')].
Qed.

(** JSON: after the type is read, it stays, and a spec stays *)
Definition typed_state (s : jstate M L S) : Prop := j_type M L S s <> None /\ j_unsup M L S s = false.
Lemma json_typed_field s e s' : typed_state s -> json_field s e = Ok s' -> typed_state s' /\ (j_spec M L S s <> None -> j_spec M L S s' <> None) /\ (forall v, e = (Some (chars "spec"), v) -> j_spec M L S s' <> None).
Proof.
  intros [H1 H2]. destruct e as [key v]. unfold BlueprintModel.json_field. cbn [fst snd]. destruct (field_of key) as [f|] eqn:Ef; [|discriminate]. rewrite H2.
  assert (Hs : f <> FSpec -> forall w, (key, v) <> (Some (chars "spec"), w)). { intros Hf w E. injection E as -> ->. change (field_of (Some (chars "spec"))) with (Some FSpec) in Ef. congruence. }
  destruct f.
  - destruct (j_type M L S s); [discriminate|]. now elim H1.
  - destruct (read_meta v); cbn [need obind]; [|discriminate]. intros H; injection H as <-. split; [now split|]. split; [auto|]. intros w E. elim (Hs ltac:(discriminate) w E).
  - destruct (j_spec M L S s); [discriminate|]. destruct (j_type M L S s) as [ty|] eqn:Et; [|discriminate]. destruct (read_spec ty v); cbn [need obind]; [|discriminate].
    intros H; injection H as <-. cbn. split; [split; cbn; congruence|]. split; discriminate.
  - destruct (j_desc M L S s); [discriminate|]. destruct v; try discriminate. intros H; injection H as <-. split; [now split|]. split; [auto|]. intros w E. elim (Hs ltac:(discriminate) w E).
  - destruct (j_sel M L S s); [discriminate|]. destruct (read_selector v); cbn [need obind]; [|discriminate]. intros H; injection H as <-. split; [now split|]. split; [auto|]. intros w E. elim (Hs ltac:(discriminate) w E).
Qed.
Lemma json_typed_fields l : forall s s', typed_state s -> fold_outcome json_field s l = Ok s' ->
  typed_state s' /\ (j_spec M L S s <> None \/ (exists v, In (Some (chars "spec"), v) l) -> j_spec M L S s' <> None).
Proof.
  induction l as [|e l IH]; intros s s' Ht H; cbn [fold_outcome] in H.
  - injection H as <-. split; [exact Ht|]. intros [K|(v & [])]. exact K.
  - destruct (json_field s e) as [y| |] eqn:E; cbn [obind] in H; try discriminate. destruct (json_typed_field s e y Ht E) as (T & P & Q). destruct (IH y s' T H) as [T' P']. split; [exact T'|].
    intros [K|(v & [K|K])]; apply P'; [left; auto|left; exact (Q v K)|right; now exists v].
Qed.
Lemma json_resource_kept m t v r : has (chars "type") (YStr t) m -> In t supported_types -> In (Some (chars "spec"), v) m ->
  (json_resource m <> Err EUnsupported) /\ (json_resource m = Ok r -> r_spec M L S r <> None).
Proof.
  intros (pre & post & -> & Hn) Ht Hs. unfold BlueprintModel.json_resource. rewrite fold_app.
  destruct (fold_outcome json_field _ pre) as [s|e|] eqn:E; cbn [obind].
  2:{ assert (e = EFormat) as ->; [|split; discriminate]. clear - E. revert E. generalize (jstate0 M L S). induction pre as [|c pre IH]; intros s E; [discriminate|]. cbn [fold_outcome] in E.
      destruct (json_field s c) as [y|z|] eqn:E1; cbn [obind] in E; [eapply IH; exact E| |discriminate]. injection E as ->. eapply json_field_err. exact E1. }
  2: split; discriminate.
  destruct (json_no_type _ _ _ _ _ _ pre (jstate0 M L S) s Hn eq_refl eq_refl E) as [H1 H2]. cbn [fold_outcome].
  assert (exists ty, json_type t = Some ty) as (ty & Ety). { clear - Ht. cbn in Ht. repeat (destruct Ht as [<-|Ht]; [eexists; reflexivity|]). destruct Ht. }
  unfold BlueprintModel.json_field at 1 3. cbn [fst snd]. change (field_of (Some (chars "type"))) with (Some FType). cbn iota beta. rewrite H2, H1, Ety. cbn [obind].
  match goal with |- context [fold_outcome json_field ?s1 post] => set (s1v := s1); destruct (fold_outcome json_field s1v post) as [s2|e|] eqn:E2 end; cbn [obind].
  - destruct (json_typed_fields post s1v s2) as [[T1 T2] T3]; [split; [discriminate|reflexivity]|exact E2|]. rewrite T2. destruct (j_type M L S s2); [|now elim T1]. split; [discriminate|].
    intros H; injection H as <-. cbn [r_spec]. apply T3. apply in_app_or in Hs. destruct Hs as [Hs|[Hs|Hs]]; [|discriminate|right; now exists v].
    (* a spec before the type is an error *)
    exfalso. apply in_split in Hs. destruct Hs as (p1 & p2 & ->). rewrite fold_app in E. destruct (fold_outcome json_field _ p1) as [s3| |] eqn:E3; cbn [obind fold_outcome] in E; try discriminate.
    destruct (json_no_type _ _ _ _ _ _ p1 (jstate0 M L S) s3 ltac:(intros w Hw; apply (Hn w); apply in_or_app; now left) eq_refl eq_refl E3) as [G1 G2].
    unfold BlueprintModel.json_field at 1 in E. cbn [fst] in E. change (field_of (Some (chars "spec"))) with (Some FSpec) in E. cbn iota beta in E. rewrite G2, G1 in E. destruct (j_spec M L S s3); discriminate E.
  - assert (e = EFormat) as ->; [|split; discriminate]. clear - E2. revert E2. generalize s1v. induction post as [|c post IH]; intros s9 E2; [discriminate|]. cbn [fold_outcome] in E2.
    destruct (json_field s9 c) as [y|z|] eqn:E1; cbn [obind] in E2; [eapply IH; exact E2| |discriminate]. injection E2 as ->. eapply json_field_err. exact E1.
  - split; discriminate.
Qed.
Lemma json_names rs : forall x res name, fold_outcome jstep x rs = Ok res -> NoDup (map fst rs) ->
  ((kept_with_spec name x /\ ~ In (Some name) (map fst rs)) \/ (exists m t v, In (Some name, YMap m) rs /\ has (chars "type") (YStr t) m /\ In t supported_types /\ In (Some (chars "spec"), v) m)) -> kept_with_spec name res.
Proof.
  induction rs as [|[key v] rs IH]; intros x res name H Hd Hn; cbn [fold_outcome] in H.
  - injection H as <-. destruct Hn as [[Hn _]|(m & t & w & [] & _)]. exact Hn.
  - cbn [map fst] in Hd. inversion Hd as [|a l Hni Hd']; subst. destruct (jstep x (key, v)) as [y|e|] eqn:E; cbn [obind] in H; try discriminate. apply (IH y res name H Hd').
    destruct Hn as [[Hn Hk]|(m & t & w & [Hin|Hin] & Hh & Ht & Hs)].
    + left. cbn [map fst] in Hk. split; [|intros Hi; apply Hk; now right]. unfold BlueprintModel.json_resources_step in E. destruct key as [k|]; [|discriminate].
      destruct v as [| | | | | |m]; try discriminate; [injection E as <-; exact Hn|]. destruct (json_resource m) as [r|[]|]; try discriminate; injection E as <-; [|exact Hn].
      apply (put_kept k r x name); [|exact Hn]. intros ->. apply Hk. now left.
    + left. injection Hin as -> ->. split; [|exact Hni]. cbn [BlueprintModel.json_resources_step] in E.
      destruct (json_resource m) as [r|e|] eqn:Er.
      * injection E as <-. destruct (json_resource_kept m t w r Hh Ht Hs) as [_ K]. exists r. split; [apply put_kept; exact name|exact (K Er)].
      * destruct (json_resource_kept m t w {| r_type := TApi; r_meta := None; r_spec := None; r_desc := None; r_sel := None |} Hh Ht Hs) as [K _]. destruct e; try discriminate. now elim K.
      * discriminate.
    + right. exists m, t, w. auto.
Qed.
Lemma json_res_once l : forall s s' rs, fold_outcome json_entry s l = Ok s' -> t_res M L S V B s = Some rs -> t_res M L S V B s' = Some rs.
Proof.
  induction l as [|[key v] l IH]; intros s s' rs H Hr; cbn [fold_outcome] in H; [injection H as <-; exact Hr|].
  destruct (json_entry s (key, v)) as [y| |] eqn:E; cbn [obind] in H; try discriminate. apply (IH y s' rs H). clear H IH.
  unfold BlueprintModel.json_entry in E. cbn [fst snd] in E. destruct key as [key|]; [|discriminate]. unfold once in E.
  destruct (text_eqb key (chars "version")). { destruct (t_version _ _ _ _ _ s); [discriminate|]. destruct v as [t| | | | | |]; try discriminate. destruct (text_eqb t version_text); [|discriminate]. injection E as <-. exact Hr. }
  destruct (text_eqb key (chars "transform")). { destruct (t_transform _ _ _ _ _ s); [discriminate|]. destruct (json_transform v); cbn [obind] in E; try discriminate. injection E as <-. exact Hr. }
  destruct (text_eqb key (chars "variables")). { destruct (t_vars _ _ _ _ _ s); [discriminate|]. destruct (optional _ v); cbn [obind] in E; try discriminate. injection E as <-. exact Hr. }
  destruct (text_eqb key (chars "resources")). { rewrite Hr in E. discriminate. }
  destruct (text_eqb key (chars "metadata")). { destruct (t_meta _ _ _ _ _ s); [discriminate|]. destruct (optional _ v); cbn [obind] in E; try discriminate. injection E as <-. exact Hr. }
  injection E as <-. exact Hr.
Qed.
Lemma json_kept_all top b rs name m t v : from_json (YMap top) = Ok b -> In (Some (chars "resources"), YMap rs) top -> NoDup (map fst rs) -> In (Some name, YMap m) rs ->
  has (chars "type") (YStr t) m -> In t supported_types -> In (Some (chars "spec"), v) m -> In name (map fst (rb_res _ _ _ _ _ b)).
Proof.
  intros H Hr Hd Hin Hh Ht Hs. unfold BlueprintModel.from_json, json_blueprint in H.
  destruct (fold_outcome json_entry _ top) as [s| |] eqn:E; cbn [obind] in H; try discriminate.
  assert (K : exists res, t_res M L S V B s = Some res /\ kept_with_spec name res).
  { apply in_split in Hr. destruct Hr as (pre & post & ->). rewrite fold_app in E. destruct (fold_outcome json_entry _ pre) as [y| |]; cbn [obind fold_outcome] in E; try discriminate.
    destruct (json_entry y (Some (chars "resources"), YMap rs)) as [z| |] eqn:E1; cbn [obind] in E; try discriminate.
    unfold BlueprintModel.json_entry in E1. cbn [fst snd json_resources] in E1.
    change (text_eqb (chars "resources") (chars "version")) with false in E1. change (text_eqb (chars "resources") (chars "transform")) with false in E1.
    change (text_eqb (chars "resources") (chars "variables")) with false in E1. change (text_eqb (chars "resources") (chars "resources")) with true in E1. cbn iota in E1.
    unfold once in E1. destruct (t_res _ _ _ _ _ y); [discriminate|]. destruct (fold_outcome jstep [] rs) as [l| |] eqn:E2; cbn [obind] in E1; try discriminate. injection E1 as <-.
    exists l. split; [eapply json_res_once; [exact E|reflexivity]|]. apply (json_names rs [] l name E2 Hd). right. exists m, t, v. auto. }
  destruct K as (res & Er & Kr). rewrite Er in H. destruct (t_version M L S V B s); [|discriminate]. destruct (t_transform M L S V B s); [|discriminate]. cbn [obind] in H.
  destruct (resolve_blueprint _ _ _ _ _ _ _ _ _ _ _ _) as [rb| |] eqn:Erb; cbn [obind] in H; try discriminate. apply resolved_res in Erb. cbn [b_res] in Erb.
  assert (rb = b) as <-. { unfold validate_blueprint in H. destruct (rb_res L V RM RS RB rb); [discriminate|]. destruct (rb_vars _ _ _ _ _ rb) as [w|]; [destruct (vars_typed w); [|discriminate]|]; congruence. }
  exact (resolve_names _ _ _ Erb Kr).
Qed.
End Params.
