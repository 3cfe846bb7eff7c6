From Verif Require Import Base Chars BlueprintModel BlueprintSpec.
Local Open Scope list_scope.

Lemma fold_app {A E X} (f : X -> A -> outcome E X) l : forall x l', fold_outcome f x (l ++ l') = obind (fold_outcome f x l) (fun y => fold_outcome f y l').
Proof. induction l as [|a l IH]; intros x l'; [reflexivity|]. cbn [app fold_outcome]. destruct (f x a); cbn [obind]; [apply IH|reflexivity|reflexivity]. Qed.
Lemma fold_skip {A E X} (f : X -> A -> outcome E X) e : (forall x, f x e = Ok x) ->
  forall l x l', fold_outcome f x (l ++ e :: l') = fold_outcome f x (l ++ l').
Proof.
  intros H l x l'. rewrite !fold_app. destruct (fold_outcome f x l); cbn [obind fold_outcome]; [|reflexivity|reflexivity]. now rewrite H.
Qed.
Lemma fold_entry {A E X} (f : X -> A -> outcome E X) e e' : (forall x, f x e = f x e') ->
  forall l x l', fold_outcome f x (l ++ e :: l') = fold_outcome f x (l ++ e' :: l').
Proof.
  intros H l x l'. rewrite !fold_app. destruct (fold_outcome f x l); cbn [obind fold_outcome]; [|reflexivity|reflexivity]. now rewrite H.
Qed.
Lemma fold_ok_at {A E X} (f : X -> A -> outcome E X) l : forall x y e, fold_outcome f x l = Ok y -> In e l -> exists a b, f a e = Ok b.
Proof.
  induction l as [|c l IH]; intros x y e H He; [destruct He|]. cbn [fold_outcome] in H. destruct He as [->|He].
  - destruct (f x e) as [b| |] eqn:E0; try discriminate. eauto.
  - destruct (f x c) as [b| |]; try discriminate. eapply IH; eassumption.
Qed.
Lemma fold_inv {A E X} (f : X -> A -> outcome E X) (P : X -> Prop) l :
  (forall x e y, In e l -> P x -> f x e = Ok y -> P y) -> forall x y, P x -> fold_outcome f x l = Ok y -> P y.
Proof.
  induction l as [|c l IH]; intros H x y Px E0; cbn [fold_outcome] in E0; [injection E0 as <-; exact Px|].
  destruct (f x c) as [b| |] eqn:Eb; try discriminate. cbn [obind] in E0. eapply IH; [|eapply H; [left; reflexivity|exact Px|exact Eb]|exact E0].
  intros z e z' He. apply H. now right.
Qed.
Lemma eqb_yes t : text_eqb t t = true.
Proof. now apply text_eqb_eq. Qed.
Lemma eqb_no t u : t <> u -> text_eqb t u = false.
Proof. intros H. destruct (text_eqb t u) eqn:E; [|reflexivity]. apply text_eqb_eq in E. contradiction. Qed.

Lemma has_get key v m : has key v m -> get key m = Some v.
Proof.
  intros (pre & post & -> & Hn). induction pre as [|[[k'|] w] pre IH]; cbn [app get].
  - now rewrite eqb_yes.
  - destruct (text_eqb k' key) eqn:E; [apply text_eqb_eq in E; subst; elim (Hn w); now left|]. apply IH. intros x Hx. apply (Hn x). now right.
  - apply IH. intros x Hx. apply (Hn x). now right.
Qed.
Lemma get_has key m v : get key m = Some v -> has key v m.
Proof.
  induction m as [|[[k'|] w] m IH]; cbn [get]; intros H; [discriminate| |].
  - destruct (text_eqb k' key) eqn:E.
    + apply text_eqb_eq in E. subst. injection H as ->. exists [], m. split; [reflexivity|]. intros w [].
    + destruct (IH H) as (pre & post & -> & Hn). exists ((Some k', w) :: pre), post. split; [reflexivity|].
      intros x [Hx|Hx]; [injection Hx as <- _; rewrite eqb_yes in E; discriminate|exact (Hn x Hx)].
  - destruct (IH H) as (pre & post & -> & Hn). exists ((None, w) :: pre), post. split; [reflexivity|].
    intros x [Hx|Hx]; [discriminate|exact (Hn x Hx)].
Qed.
Lemma yaml_unsupported t : ~ In t supported_types -> yaml_type t = Err EUnsupported.
Proof.
  intros H. unfold yaml_type. repeat (rewrite eqb_no; [|intros ->; apply H; vm_compute; tauto]). reflexivity.
Qed.
Lemma yaml_supported t ty : yaml_type t = Ok ty -> In t supported_types.
Proof.
  unfold yaml_type. repeat (match goal with |- context [if text_eqb ?a ?b then _ else _] => let E := fresh in destruct (text_eqb a b) eqn:E; [apply text_eqb_eq in E; subst t; intros _; vm_compute; tauto|clear E] end). discriminate.
Qed.
Lemma json_unsupported t : ~ In t supported_types -> json_type t = None.
Proof.
  intros H. unfold json_type. repeat (rewrite eqb_no; [|intros ->; apply H; vm_compute; tauto]). reflexivity.
Qed.
Lemma json_supported t ty : json_type t = Some ty -> In t supported_types.
Proof.
  unfold json_type. repeat (match goal with |- context [if text_eqb ?a ?b then _ else _] => let E := fresh in destruct (text_eqb a b) eqn:E; [apply text_eqb_eq in E; subst t; intros _; vm_compute; tauto|clear E] end). discriminate.
Qed.
Lemma both_types_same t : In t both_types -> exists ty, yaml_type t = Ok ty /\ json_type t = Some ty.
Proof. cbn. intros H. repeat (destruct H as [<-|H]; [eexists; split; reflexivity|]). destruct H. Qed.

Section Params.
Variables M L S V B RM RS RB : Type.
Variable read_meta : yaml -> option M.
Variable read_selector : yaml -> option L.
Variable read_spec : rtype -> yaml -> option S.
Variable read_vars : yaml -> option V.
Variable read_bmeta : yaml -> option B.
Variable vars_typed : V -> bool.
Variable resolve_meta : text -> option M -> option RM.
Variable resolve_spec : text -> S -> option RS.
Variable resolve_bmeta : B -> option RB.
Notation yaml_resource := (yaml_resource M L S read_meta read_selector read_spec).
Notation json_resource := (json_resource M L S read_meta read_selector read_spec).
Notation ystep := (yaml_resources_step M L S read_meta read_selector read_spec).
Notation jstep := (json_resources_step M L S read_meta read_selector read_spec).
Notation yaml_field := (yaml_field M L S read_meta read_selector read_spec).
Notation json_field := (json_field M L S read_meta read_selector read_spec).
Notation yaml_entry := (yaml_entry M L S V B read_meta read_selector read_spec read_vars read_bmeta).
Notation json_entry := (json_entry M L S V B read_meta read_selector read_spec read_vars read_bmeta).
Notation from_yaml := (from_yaml M L S V B RM RS RB read_meta read_selector read_spec read_vars read_bmeta resolve_meta resolve_spec resolve_bmeta).
Notation from_json := (from_json M L S V B RM RS RB read_meta read_selector read_spec read_vars read_bmeta vars_typed resolve_meta resolve_spec resolve_bmeta).

Lemma yaml_skip body : unsupported body -> forall rs name, ystep rs (Some name, body) = Ok rs.
Proof.
  intros (m & t & -> & Ht & Hn) rs name. cbn [BlueprintModel.yaml_resources_step]. unfold BlueprintModel.yaml_resource.
  rewrite (has_get _ _ _ Ht), (yaml_unsupported t Hn). reflexivity.
Qed.
Lemma yaml_extended body d d' : unsupported body -> extended body d d' -> from_yaml [d'] = from_yaml [d].
Proof.
  intros Hu He. destruct He as [pre rpre name rpost post]. unfold BlueprintModel.from_yaml, yaml_blueprint.
  rewrite (fold_entry yaml_entry _ (Some (chars "resources"), YMap (rpre ++ rpost))); [reflexivity|].
  intros b. unfold BlueprintModel.yaml_entry, yaml_resources. rewrite fold_skip; [reflexivity|]. intros x. now apply yaml_skip.
Qed.

Definition unsup_state (s : jstate M L S) : Prop := j_unsup M L S s = true.
Lemma json_rest rest s : j_unsup M L S s = true ->
  (forall key v, In (key, v) rest -> exists k, key = Some k /\ In k resource_keys) ->
  fold_outcome json_field s rest = Ok s.
Proof.
  induction rest as [|[key v] rest IH]; intros Hs Hk; [reflexivity|]. cbn [fold_outcome].
  assert (E : json_field s (key, v) = Ok s).
  { destruct (Hk key v (or_introl eq_refl)) as (k & -> & Hin). unfold BlueprintModel.json_field. cbn [fst]. rewrite Hs.
    cbn in Hin. repeat (destruct Hin as [<-|Hin]; [reflexivity|]). destruct Hin. }
  rewrite E. cbn [obind]. apply IH; [exact Hs|]. intros k w Hin. apply (Hk k w). now right.
Qed.
Lemma json_skip body : unsupported body -> type_first body -> forall rs name, jstep rs (Some name, body) = Ok rs.
Proof.
  intros (m & t & -> & Ht & Hn) (t' & rest & Eb & Hk) rs name. injection Eb as ->.
  assert (t' = t) as ->. { apply has_get in Ht. cbn in Ht. congruence. }
  cbn [BlueprintModel.json_resources_step]. unfold BlueprintModel.json_resource. cbn [fold_outcome].
  unfold BlueprintModel.json_field at 1. change (field_of (fst (Some (chars "type"), YStr t))) with (Some FType). cbn [j_unsup jstate0 j_type snd].
  rewrite (json_unsupported t Hn). cbn [obind]. rewrite json_rest; [reflexivity|reflexivity|exact Hk].
Qed.
Lemma json_extended body d d' : unsupported body -> type_first body -> extended body d d' -> from_json d' = from_json d.
Proof.
  intros Hu Hf He. destruct He as [pre rpre name rpost post]. unfold BlueprintModel.from_json, json_blueprint.
  rewrite (fold_entry json_entry _ (Some (chars "resources"), YMap (rpre ++ rpost))); [reflexivity|].
  intros b. unfold BlueprintModel.json_entry. cbn [fst snd json_resources]. rewrite fold_skip; [reflexivity|]. intros x. now apply json_skip.
Qed.
Lemma json_field_err s e x : json_field s e = Err x -> x = EFormat.
Proof.
  unfold BlueprintModel.json_field, need. destruct (field_of (fst e)) as [[]|]; try congruence; repeat (match goal with |- context [match ?y with _ => _ end] => destruct y end; cbn [obind]; try congruence).
Qed.
Lemma json_field_bad s key v : ~ In key resource_keys -> json_field s (Some key, v) = Err EFormat.
Proof.
  intros H. unfold BlueprintModel.json_field. cbn [fst field_of]. repeat (rewrite eqb_no; [|intros ->; apply H; vm_compute; tauto]). reflexivity.
Qed.
Lemma json_fields_bad m : forall s key v, In (Some key, v) m -> ~ In key resource_keys -> fold_outcome json_field s m = Err EFormat.
Proof.
  induction m as [|e m IH]; intros s key v Hin Hk; [destruct Hin|]. cbn [fold_outcome]. destruct Hin as [->|Hin].
  - now rewrite json_field_bad.
  - destruct (json_field s e) as [y|x|] eqn:E; cbn [obind].
    + eapply IH; eassumption.
    + apply json_field_err in E. now subst.
    + exfalso. revert E. unfold BlueprintModel.json_field, need. destruct (field_of (fst e)) as [[]|]; try congruence; repeat (match goal with |- context [match ?y with _ => _ end] => destruct y end; cbn [obind]; try congruence).
Qed.
Lemma json_extended_bad m body d d' key v b : body = YMap m -> In (Some key, v) m -> ~ In key resource_keys ->
  extended body d d' -> from_json d' <> Ok b.
Proof.
  intros -> Hin Hk He. destruct He as [pre rpre name rpost post]. unfold BlueprintModel.from_json, json_blueprint.
  destruct (fold_outcome json_entry _ _) as [s|e|] eqn:E; cbn [obind]; try discriminate. exfalso.
  destruct (fold_ok_at _ _ _ _ (Some (chars "resources"), YMap (rpre ++ (Some name, YMap m) :: rpost)) E ltac:(apply in_or_app; right; now left)) as (s1 & s2 & E2).
  unfold BlueprintModel.json_entry in E2. cbn [fst snd json_resources] in E2.
  change (text_eqb (chars "resources") (chars "version")) with false in E2. change (text_eqb (chars "resources") (chars "transform")) with false in E2.
  change (text_eqb (chars "resources") (chars "variables")) with false in E2. change (text_eqb (chars "resources") (chars "resources")) with true in E2. cbn iota in E2.
  unfold once in E2. destruct (t_res _ _ _ _ _ s1); [discriminate|].
  destruct (fold_outcome jstep [] _) as [rs|e|] eqn:E3; cbn [obind] in E2; try discriminate.
  destruct (fold_ok_at _ _ _ _ (Some name, YMap m) E3 ltac:(apply in_or_app; right; now left)) as (r1 & r2 & E4).
  cbn [BlueprintModel.json_resources_step] in E4. unfold BlueprintModel.json_resource in E4. rewrite (json_fields_bad m _ key v Hin Hk) in E4. discriminate.
Qed.

(** A spec before the type *)
Lemma json_no_type pre : forall s s', (forall w, ~ In (Some (chars "type"), w) pre) -> j_type M L S s = None -> j_unsup M L S s = false ->
  fold_outcome json_field s pre = Ok s' -> j_type M L S s' = None /\ j_unsup M L S s' = false.
Proof.
  intros s s' Hn H1 H2. apply (fold_inv json_field (fun s => j_type M L S s = None /\ j_unsup M L S s = false)); [|auto].
  clear s s' H1 H2. intros s [key v] s' Hin [H1 H2]. unfold BlueprintModel.json_field. cbn [fst snd]. rewrite H2.
  destruct (field_of key) as [[]|] eqn:Ef; [|destruct (read_meta v)|destruct (j_spec M L S s)|destruct (j_desc M L S s)|destruct (j_sel M L S s)|]; cbn [need obind]; try discriminate.
  - exfalso. unfold field_of in Ef. destruct key as [k|]; [|discriminate]. destruct (text_eqb k (chars "type")) eqn:E; [apply text_eqb_eq in E; subst; exact (Hn v Hin)|].
    repeat (destruct (text_eqb _ _); [discriminate|]). discriminate.
  - intros H; injection H as <-; auto.
  - rewrite H1. discriminate.
  - destruct v; try discriminate. intros H; injection H as <-; auto.
  - destruct (read_selector v); cbn [need obind]; [|discriminate]. intros H; injection H as <-; auto.
Qed.
Lemma json_spec_first pre v post : (forall w, ~ In (Some (chars "type"), w) pre) ->
  (forall x, json_resource (pre ++ (Some (chars "spec"), v) :: post) <> Ok x) /\ json_resource (pre ++ (Some (chars "spec"), v) :: post) <> Err EUnsupported.
Proof.
  intros Hn. unfold BlueprintModel.json_resource. rewrite fold_app. destruct (fold_outcome json_field _ pre) as [s|e|] eqn:E; cbn [obind].
  - destruct (json_no_type pre (jstate0 M L S) s Hn eq_refl eq_refl E) as [H1 H2]. cbn [fold_outcome]. unfold BlueprintModel.json_field at 1 3. cbn [fst]. change (field_of (Some (chars "spec"))) with (Some FSpec). cbn iota beta.
    rewrite H2, H1. destruct (j_spec M L S s); cbn [obind]; split; discriminate.
  - assert (e = EFormat) as ->; [|split; discriminate]. clear - E. revert E. generalize (jstate0 M L S). induction pre as [|c pre IH]; intros s E; [discriminate|]. cbn [fold_outcome] in E.
    destruct (json_field s c) as [y|z|] eqn:E1; cbn [obind] in E; [eapply IH; exact E| |discriminate]. injection E as ->. eapply json_field_err. exact E1.
  - split; discriminate.
Qed.
Lemma json_extended_spec_first body pre v post d d' b : body = YMap (pre ++ (Some (chars "spec"), v) :: post) ->
  (forall w, ~ In (Some (chars "type"), w) pre) -> extended body d d' -> from_json d' <> Ok b.
Proof.
  intros -> Hn He. set (m := pre ++ (Some (chars "spec"), v) :: post) in *. destruct He as [dpre rpre name rpost dpost]. unfold BlueprintModel.from_json, json_blueprint.
  destruct (fold_outcome json_entry _ _) as [s|e|] eqn:E; cbn [obind]; try discriminate. exfalso.
  destruct (fold_ok_at _ _ _ _ (Some (chars "resources"), YMap (rpre ++ (Some name, YMap m) :: rpost)) E ltac:(apply in_or_app; right; now left)) as (s1 & s2 & E2).
  unfold BlueprintModel.json_entry in E2. cbn [fst snd json_resources] in E2.
  change (text_eqb (chars "resources") (chars "version")) with false in E2. change (text_eqb (chars "resources") (chars "transform")) with false in E2.
  change (text_eqb (chars "resources") (chars "variables")) with false in E2. change (text_eqb (chars "resources") (chars "resources")) with true in E2. cbn iota in E2.
  unfold once in E2. destruct (t_res _ _ _ _ _ s1); [discriminate|].
  destruct (fold_outcome jstep [] _) as [rs|e|] eqn:E3; cbn [obind] in E2; try discriminate.
  destruct (fold_ok_at _ _ _ _ (Some name, YMap m) E3 ltac:(apply in_or_app; right; now left)) as (r1 & r2 & E4).
  cbn [BlueprintModel.json_resources_step] in E4. 
  destruct (json_resource m) as [x|[]|] eqn:E5; try discriminate.
  - exact (proj1 (json_spec_first pre v post Hn) x E5).
  - exact (proj2 (json_spec_first pre v post Hn) E5).
Qed.

(** Every resource of the result is in the document with a supported type. *)
Definition kept_from (rs : list (option text * yaml)) (res : list (text * resource M L S)) : Prop :=
  forall name r, In (name, r) res -> exists m t, In (Some name, YMap m) rs /\ In (Some (chars "type"), YStr t) m /\ In t supported_types.
Lemma put_in {A} k (v : A) m e : In e (put k v m) -> e = (k, v) \/ In e m.
Proof. unfold put. intros H. apply in_app_or in H. destruct H as [H|[<-|[]]]; [right; eapply filter_In; exact H|now left]. Qed.
Lemma has_in key v m : has key v m -> In (Some key, v) m.
Proof. intros (pre & post & -> & _). apply in_or_app. right. now left. Qed.
Lemma yaml_resource_type m r : yaml_resource m = Ok r -> exists t, In (Some (chars "type"), YStr t) m /\ In t supported_types /\ r_spec M L S r <> None.
Proof.
  unfold BlueprintModel.yaml_resource. destruct (get (chars "type") m) as [[t| | | | | |]|] eqn:G; try discriminate.
  destruct (yaml_type t) as [ty| |] eqn:Et; cbn [obind]; try discriminate. intros H. exists t. split; [apply has_in, get_has, G|]. split; [eapply yaml_supported, Et|].
  destruct (fold_outcome _ _ m) as [r'| |]; cbn [obind] in H; try discriminate. destruct (r_spec M L S r') eqn:Es; [|discriminate]. injection H as <-. congruence.
Qed.
Lemma json_resource_type m r : json_resource m = Ok r -> exists t, In (Some (chars "type"), YStr t) m /\ In t supported_types.
Proof.
  unfold BlueprintModel.json_resource. destruct (fold_outcome _ _ m) as [s| |] eqn:E; cbn [obind]; try discriminate.
  assert (I : j_type M L S s = None \/ exists t, In (Some (chars "type"), YStr t) m /\ In t supported_types).
  { revert E. apply (fold_inv json_field (fun s => j_type M L S s = None \/ exists t, In (Some (chars "type"), YStr t) m /\ In t supported_types)); [|now left].
    clear s. intros s [key v] s' Hin HI. unfold BlueprintModel.json_field. cbn [fst snd].
    destruct (field_of key) as [f|] eqn:Ef; [|discriminate]. destruct (j_unsup M L S s); [intros H; injection H as <-; exact HI|].
    destruct f; [|destruct (read_meta v)|destruct (j_spec M L S s); [|destruct (j_type M L S s) as [ty|] eqn:Ety; [destruct (read_spec ty v)|]]|destruct (j_desc M L S s)|destruct (j_sel M L S s); [|destruct (read_selector v)]]; cbn [need obind]; try discriminate.
    2,3,5: intros H; injection H as <-; exact HI.
    2: destruct v; try discriminate; intros H; injection H as <-; exact HI.
    assert (key = Some (chars "type")) as ->.
    { unfold field_of in Ef. destruct key as [k|]; [|discriminate]. destruct (text_eqb k (chars "type")) eqn:E; [apply text_eqb_eq in E; now subst|]. repeat (destruct (text_eqb _ _); [discriminate|]). discriminate. }
    destruct (j_type M L S s); [discriminate|]. destruct v as [t| | | | | |]; try discriminate. destruct (json_type t) as [ty|] eqn:Ej.
    - intros _. right. exists t. split; [exact Hin|eapply json_supported, Ej].
    - intros H; injection H as <-. now left. }
  destruct (j_unsup M L S s); [discriminate|]. destruct (j_type M L S s); [|discriminate]. intros _. destruct I as [I|I]; [discriminate|exact I].
Qed.
Definition all_specs (res : list (text * resource M L S)) : Prop := forall name r, In (name, r) res -> r_spec M L S r <> None.
Lemma yaml_kept rs res : yaml_resources M L S read_meta read_selector read_spec rs = Ok res -> kept_from rs res /\ all_specs res.
Proof.
  unfold yaml_resources. apply (fold_inv ystep (fun res => kept_from rs res /\ all_specs res)); [|split; intros ? ? []].
  intros x [key v] y Hin [K A] H. unfold BlueprintModel.yaml_resources_step in H. destruct key as [name|]; [|injection H as <-; now split].
  destruct v as [| | | | | |m]; try (injection H as <-; now split).
  destruct (yaml_resource m) as [r|[]|] eqn:E; try discriminate; injection H as <-; [|now split].
  apply yaml_resource_type in E. destruct E as (t & H1 & H2 & H3). split; intros n r' Hr; apply put_in in Hr; destruct Hr as [Hr|Hr].
  - injection Hr as -> ->. exists m, t. auto.
  - exact (K _ _ Hr).
  - injection Hr as -> ->. exact H3.
  - exact (A _ _ Hr).
Qed.
Lemma json_kept rs res : fold_outcome jstep [] rs = Ok res -> kept_from rs res.
Proof.
  apply (fold_inv jstep (fun res => kept_from rs res)); [|intros ? ? []].
  intros x [key v] y Hin K H. unfold BlueprintModel.json_resources_step in H. destruct key as [name|]; [|discriminate].
  destruct v as [| | | | | |m]; try discriminate; [injection H as <-; exact K|].
  destruct (json_resource m) as [r|[]|] eqn:E; try discriminate; injection H as <-; [|exact K].
  apply json_resource_type in E. destruct E as (t & H1 & H2). intros n r' Hr; apply put_in in Hr; destruct Hr as [Hr|Hr]; [|exact (K _ _ Hr)].
  injection Hr as -> ->. exists m, t. auto.
Qed.
Notation resolve_resources := (resolve_resources M L S RM RS resolve_meta resolve_spec).
Lemma resolve_in rs : forall out name r, resolve_resources rs = Ok out -> In (name, r) out -> exists r0, In (name, r0) rs.
Proof.
  induction rs as [|[n r0] rs IH]; intros out name r H Hin; cbn [BlueprintModel.resolve_resources] in H; [injection H as <-; destruct Hin|].
  destruct (resolve_meta n _); [|discriminate]. destruct (r_spec M L S r0); [|destruct (IH _ _ _ H Hin) as [x Hx]; exists x; now right].
  destruct (resolve_spec n s); [|discriminate]. destruct (resolve_resources rs) as [l| |] eqn:E; cbn [obind] in H; try discriminate. injection H as <-.
  destruct Hin as [Hin|Hin]; [injection Hin as -> _; exists r0; now left|destruct (IH _ _ _ eq_refl Hin) as [x Hx]; exists x; now right].
Qed.
Lemma resolve_nonempty rs out : all_specs rs -> resolve_resources rs = Ok out -> (rs = [] <-> out = []).
Proof.
  destruct rs as [|[n r0] rs]; intros A H; cbn [BlueprintModel.resolve_resources] in H; [injection H as <-; tauto|].
  destruct (resolve_meta n _); [|discriminate]. destruct (r_spec M L S r0) eqn:Es; [|elim (A n r0 (or_introl eq_refl) Es)].
  destruct (resolve_spec n s); [|discriminate]. destruct (resolve_resources rs) as [l| |]; cbn [obind] in H; try discriminate. injection H as <-. split; discriminate.
Qed.
Lemma resolved_res b rb : resolve_blueprint M L S V B RM RS RB resolve_meta resolve_spec resolve_bmeta b = Ok rb ->
  resolve_resources (b_res M L S V B b) = Ok (rb_res L V RM RS RB rb).
Proof.
  unfold resolve_blueprint. destruct (resolve_resources _) as [l| |]; cbn [obind]; try discriminate.
  destruct (b_meta M L S V B b) as [x|]; [destruct (resolve_bmeta x); [|discriminate]|]; intros H; injection H as <-; reflexivity.
Qed.
Definition doc_kept (top : list (option text * yaml)) (res : list (text * resource M L S)) : Prop :=
  forall name r, In (name, r) res -> exists rs m t, In (Some (chars "resources"), YMap rs) top /\ In (Some name, YMap m) rs /\ In (Some (chars "type"), YStr t) m /\ In t supported_types.
Lemma yaml_doc_kept top b : fold_outcome yaml_entry (empty_blueprint M L S V B) top = Ok b -> doc_kept top (b_res M L S V B b) /\ all_specs (b_res M L S V B b).
Proof.
  apply (fold_inv yaml_entry (fun b => doc_kept top (b_res M L S V B b) /\ all_specs (b_res M L S V B b))); [|split; intros ? ? []].
  clear b. intros b [key v] b' Hin HI H. unfold BlueprintModel.yaml_entry in H. destruct key as [key|]; [|injection H as <-; exact HI].
  destruct v as [t| | | | | |m]; try (injection H as <-; exact HI).
  - destruct (text_eqb key (chars "version")); [destruct (text_eqb t version_text); [|discriminate]|destruct (text_eqb key (chars "transform"))]; injection H as <-; exact HI.
  - destruct (text_eqb key (chars "variables")); [destruct (read_vars (YMap m)); cbn [need obind] in H; [|discriminate]; injection H as <-; exact HI|].
    destruct (text_eqb key (chars "resources")) eqn:Er.
    + apply text_eqb_eq in Er. subst key. destruct (yaml_resources _ _ _ _ _ _ m) as [rs| |] eqn:E; cbn [obind] in H; try discriminate. injection H as <-. cbn [b_res].
      destruct (yaml_kept m rs E) as [K A]. split; [|exact A]. intros name r Hr. destruct (K name r Hr) as (m' & t & H1 & H2 & H3). exists m, m', t. auto.
    + destruct (text_eqb key (chars "metadata")); [destruct (sets_shared m); [destruct (read_bmeta (YMap m)); cbn [need obind] in H; [|discriminate]|]|]; injection H as <-; exact HI.
Qed.
Lemma json_doc_kept top s : fold_outcome json_entry (jtop0 M L S V B) top = Ok s -> forall rs, t_res M L S V B s = Some rs -> doc_kept top rs.
Proof.
  apply (fold_inv json_entry (fun s => forall rs, t_res M L S V B s = Some rs -> doc_kept top rs)); [|discriminate].
  clear s. intros s [key v] s' Hin HI H. unfold BlueprintModel.json_entry in H. cbn [fst snd] in H. destruct key as [key|]; [|discriminate]. unfold once in H.
  destruct (text_eqb key (chars "version")). { destruct (t_version _ _ _ _ _ s); [discriminate|]. destruct v as [t| | | | | |]; try discriminate. destruct (text_eqb t version_text); [|discriminate]. injection H as <-. exact HI. }
  destruct (text_eqb key (chars "transform")). { destruct (t_transform _ _ _ _ _ s); [discriminate|]. destruct (json_transform v); cbn [obind] in H; try discriminate. injection H as <-. exact HI. }
  destruct (text_eqb key (chars "variables")). { destruct (t_vars _ _ _ _ _ s); [discriminate|]. destruct (optional _ v); cbn [obind] in H; try discriminate. injection H as <-. exact HI. }
  destruct (text_eqb key (chars "resources")) eqn:Er.
  { apply text_eqb_eq in Er. subst key. destruct (t_res _ _ _ _ _ s); [discriminate|]. destruct v as [| | | | | |m]; try discriminate. cbn [json_resources] in H.
    destruct (fold_outcome jstep [] m) as [rs| |] eqn:E; cbn [obind] in H; try discriminate. injection H as <-. cbn [t_res]. intros rs' H'. injection H' as <-.
    intros name r Hr. destruct (json_kept m rs E name r Hr) as (m' & t & H1 & H2 & H3). exists m, m', t. auto. }
  destruct (text_eqb key (chars "metadata")). { destruct (t_meta _ _ _ _ _ s); [discriminate|]. destruct (optional _ v); cbn [obind] in H; try discriminate. injection H as <-. exact HI. }
  injection H as <-. exact HI.
Qed.
End Params.
