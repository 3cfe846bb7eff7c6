(** Documents written the same way for both readers. *)
From Verif Require Import Base Chars BlueprintModel BlueprintSpec BlueprintProofs.
Local Open Scope list_scope.

Section Params.
Variables M L S V B RM RS RB : Type.
Variable read_meta : yaml -> option M.
Variable read_selector : yaml -> option L.
Variable read_spec : rtype -> yaml -> option S.
Variable read_vars : yaml -> option V.
Variable read_bmeta : yaml -> option B.
Variable vars_typed : V -> bool.
Variable resolve_meta : text -> option M -> option RM.
Variable resolve_spec : text -> S -> option RS.
Variable resolve_bmeta : B -> option RB.
Notation yaml_resource := (yaml_resource M L S read_meta read_selector read_spec).
Notation json_resource := (json_resource M L S read_meta read_selector read_spec).
Notation ystep := (yaml_resources_step M L S read_meta read_selector read_spec).
Notation jstep := (json_resources_step M L S read_meta read_selector read_spec).
Notation yaml_field := (yaml_field M L S read_meta read_selector read_spec).
Notation json_field := (json_field M L S read_meta read_selector read_spec).
Notation yaml_entry := (yaml_entry M L S V B read_meta read_selector read_spec read_vars read_bmeta).
Notation json_entry := (json_entry M L S V B read_meta read_selector read_spec read_vars read_bmeta).
Notation from_yaml := (from_yaml M L S V B RM RS RB read_meta read_selector read_spec read_vars read_bmeta resolve_meta resolve_spec resolve_bmeta).
Notation from_json := (from_json M L S V B RM RS RB read_meta read_selector read_spec read_vars read_bmeta vars_typed resolve_meta resolve_spec resolve_bmeta).

Definition js_of (r : resource M L S) : jstate M L S :=
  {| j_type := Some (r_type _ _ _ r); j_meta := r_meta _ _ _ r; j_spec := r_spec _ _ _ r; j_desc := r_desc _ _ _ r; j_sel := r_sel _ _ _ r; j_unsup := false |}.
Definition field_shape (rest : list (option text * yaml)) : Prop :=
  forall key v, In (key, v) rest ->
       (key = Some (chars "description") /\ exists u, v = YStr u) \/
       (In key [Some (chars "metadata"); Some (chars "spec"); Some (chars "linkSelector")] /\ exists m, v = YMap m).
Lemma fields_same rest : forall r, NoDup (map fst rest) -> field_shape rest ->
  (r_spec _ _ _ r <> None -> ~ In (Some (chars "spec")) (map fst rest)) ->
  (r_desc _ _ _ r <> None -> ~ In (Some (chars "description")) (map fst rest)) ->
  (r_sel _ _ _ r <> None -> ~ In (Some (chars "linkSelector")) (map fst rest)) ->
  fold_outcome json_field (js_of r) rest = omap js_of (fold_outcome yaml_field r rest).
Proof.
  induction rest as [|[key v] rest IH]; intros r Hd Hs H1 H2 H3; [reflexivity|]. cbn [map fst] in *.
  inversion Hd as [|x l Hni Hd']; subst. assert (Hs' : field_shape rest) by (intros k w Hin; apply Hs; now right).
  cbn [fold_outcome]. destruct (Hs key v (or_introl eq_refl)) as [[-> (u & ->)]|[Hk (m & ->)]].
  - unfold BlueprintModel.json_field at 1, BlueprintModel.yaml_field at 1. cbn [fst snd]. change (field_of (Some (chars "description"))) with (Some FDesc).
    change (text_eqb (chars "description") (chars "metadata")) with false. change (text_eqb (chars "description") (chars "linkSelector")) with false. change (text_eqb (chars "description") (chars "description")) with true. cbn [j_unsup js_of j_desc].
    destruct (r_desc M L S r) eqn:Ed; [exfalso; apply H2; [congruence|now left]|]. cbn [obind].
    rewrite <- IH; [reflexivity|exact Hd'|exact Hs'|..]; cbn [r_spec r_desc r_sel].
    + intros Hx Hi. apply (H1 Hx). now right.
    + intros _. exact Hni.
    + intros Hx Hi. apply (H3 Hx). now right.
  - destruct Hk as [<-|[<-|[<-|[]]]]; unfold BlueprintModel.json_field at 1, BlueprintModel.yaml_field at 1; cbn [fst snd].
    + change (field_of (Some (chars "metadata"))) with (Some FMeta). change (text_eqb (chars "metadata") (chars "metadata")) with true. cbn [j_unsup js_of is_map].
      destruct (read_meta (YMap m)); cbn [need obind omap]; [|reflexivity].
      rewrite <- IH; [reflexivity|exact Hd'|exact Hs'|..]; cbn [r_spec r_desc r_sel]; intros Hx Hi; [apply (H1 Hx)|apply (H2 Hx)|apply (H3 Hx)]; now right.
    + change (field_of (Some (chars "spec"))) with (Some FSpec). change (text_eqb (chars "spec") (chars "metadata")) with false. change (text_eqb (chars "spec") (chars "linkSelector")) with false. change (text_eqb (chars "spec") (chars "description")) with false. change (text_eqb (chars "spec") (chars "spec")) with true. cbn [j_unsup js_of is_map j_spec j_type].
      destruct (r_spec M L S r) eqn:Es; [exfalso; apply H1; [congruence|now left]|].
      destruct (read_spec (r_type M L S r) (YMap m)); cbn [need obind omap]; [|reflexivity].
      rewrite <- IH; [reflexivity|exact Hd'|exact Hs'|..]; cbn [r_spec r_desc r_sel].
      * intros _. exact Hni.
      * intros Hx Hi. apply (H2 Hx). now right.
      * intros Hx Hi. apply (H3 Hx). now right.
    + change (field_of (Some (chars "linkSelector"))) with (Some FSel). change (text_eqb (chars "linkSelector") (chars "metadata")) with false. change (text_eqb (chars "linkSelector") (chars "linkSelector")) with true. cbn [j_unsup js_of is_map j_sel].
      destruct (r_sel M L S r) eqn:Es; [exfalso; apply H3; [congruence|now left]|].
      destruct (read_selector (YMap m)); cbn [need obind omap]; [|reflexivity].
      rewrite <- IH; [reflexivity|exact Hd'|exact Hs'|..]; cbn [r_spec r_desc r_sel].
      * intros Hx Hi. apply (H1 Hx). now right.
      * intros Hx Hi. apply (H2 Hx). now right.
      * intros _. exact Hni.
Qed.
Lemma spec_kept rest r r' : fold_outcome yaml_field r rest = Ok r' -> r_spec _ _ _ r <> None -> r_spec _ _ _ r' <> None.
Proof.
  intros H Hr. revert H. apply (fold_inv yaml_field (fun r => r_spec _ _ _ r <> None)); [|exact Hr].
  clear r r' Hr. intros r [key v] r' _ Hr. unfold BlueprintModel.yaml_field. cbn [fst snd]. destruct key as [key|]; [|intros H; injection H as <-; exact Hr].
  repeat match goal with |- context [if ?c then _ else _] => destruct c end; try discriminate;
    try (destruct (read_meta v)); try (destruct (read_selector v)); try (destruct (read_spec (r_type M L S r) v)); cbn [need obind]; try discriminate;
    try (destruct v; try discriminate); intros H; injection H as <-; try exact Hr; cbn [r_spec]; discriminate.
Qed.
Lemma spec_set rest : forall r r' s, fold_outcome yaml_field r rest = Ok r' -> In (Some (chars "spec"), s) rest -> r_spec _ _ _ r' <> None.
Proof.
  induction rest as [|e rest IH]; intros r r' s H Hin; [destruct Hin|]. cbn [fold_outcome] in H. destruct (yaml_field r e) as [y| |] eqn:E; cbn [obind] in H; try discriminate.
  destruct Hin as [->|Hin]; [|eapply IH; eassumption]. eapply spec_kept; [exact H|]. revert E. unfold BlueprintModel.yaml_field. cbn [fst snd].
  change (text_eqb (chars "spec") (chars "metadata")) with false. change (text_eqb (chars "spec") (chars "linkSelector")) with false. change (text_eqb (chars "spec") (chars "description")) with false. change (text_eqb (chars "spec") (chars "spec")) with true. cbn iota.
  destruct (is_map s); [|discriminate]. destruct (read_spec (r_type M L S r) s); cbn [need obind]; [|discriminate]. intros E. injection E as <-. discriminate.
Qed.
Lemma resource_same m : plain_resource (YMap m) -> json_resource m = yaml_resource m /\ yaml_resource m <> Err EUnsupported.
Proof.
  intros (t & rest & Em & Ht & [Hd _] & Hs & (sp & Hsp)). injection Em as ->. destruct (both_types_same t Ht) as (ty & Ey & Ej).
  unfold BlueprintModel.json_resource, BlueprintModel.yaml_resource. cbn [get]. change (text_eqb (chars "type") (chars "type")) with true. cbn iota. rewrite Ey. cbn [obind fold_outcome].
  unfold BlueprintModel.json_field at 1, BlueprintModel.yaml_field at 1 3. cbn [fst snd]. change (field_of (Some (chars "type"))) with (Some FType).
  change (text_eqb (chars "type") (chars "metadata")) with false. change (text_eqb (chars "type") (chars "linkSelector")) with false. change (text_eqb (chars "type") (chars "description")) with false. change (text_eqb (chars "type") (chars "spec")) with false.
  cbn [j_unsup jstate0 j_type]. rewrite Ej. cbn [obind]. cbn [map fst] in Hd. inversion Hd as [|x l _ Hd']; subst.
  set (r0 := {| r_type := ty; r_meta := None; r_spec := None; r_desc := None; r_sel := None |}).
  change (fold_outcome json_field _ rest) with (fold_outcome json_field (js_of r0) rest).
  rewrite fields_same; [|exact Hd'|exact Hs|cbn; congruence|cbn; congruence|cbn; congruence].
  destruct (fold_outcome yaml_field r0 rest) as [r|e|] eqn:E; cbn [omap obind].
  - cbn [j_unsup js_of j_type j_meta j_spec j_desc j_sel]. pose proof (spec_set rest r0 r sp E Hsp) as Hn. destruct (r_spec M L S r) eqn:Er; [|now elim Hn].
    split; [rewrite <- Er; destruct r; reflexivity|discriminate].
  - split; [reflexivity|]. intros X. injection X as ->. clear - E. revert E. generalize r0. induction rest as [|c rest IH]; intros r E; [discriminate|]. cbn [fold_outcome] in E.
    destruct (yaml_field r c) as [y|z|] eqn:E1; cbn [obind] in E; [eapply IH; exact E| |discriminate]. injection E as ->. revert E1. unfold BlueprintModel.yaml_field, need.
    repeat (match goal with |- context [match ?y with _ => _ end] => destruct y end; cbn [obind]; try discriminate).
  - split; [reflexivity|discriminate].
Qed.
Lemma resources_same rs : (forall name body, In (name, body) rs -> plain_resource body) -> ~ In None (map fst rs) ->
  forall x, fold_outcome jstep x rs = fold_outcome ystep x rs.
Proof.
  induction rs as [|[key v] rs IH]; intros Hp Hn x; [reflexivity|]. cbn [fold_outcome].
  assert (E : jstep x (key, v) = ystep x (key, v)).
  { destruct key as [name|]; [|elim Hn; now left]. pose proof (Hp _ _ (or_introl eq_refl)) as P. assert (exists m, v = YMap m) as (m & ->) by (destruct P as (t & rest & -> & _); eauto).
    cbn [BlueprintModel.json_resources_step BlueprintModel.yaml_resources_step]. now rewrite (proj1 (resource_same m P)). }
  rewrite E. destruct (ystep x (key, v)); cbn [obind]; try reflexivity. apply IH; [intros n b Hin; apply (Hp n b); now right|intros Hi; apply Hn; now right].
Qed.

(** The states after the same entries *)
Record sim (s : jtop M L S V B) (b : blueprint M L S V B) : Prop := {
  s_version : b_version _ _ _ _ _ b = match t_version _ _ _ _ _ s with Some v => v | None => [] end;
  s_transform : b_transform _ _ _ _ _ b = t_transform _ _ _ _ _ s;
  s_vars : b_vars _ _ _ _ _ b = flatten (t_vars _ _ _ _ _ s);
  s_res : b_res _ _ _ _ _ b = match t_res _ _ _ _ _ s with Some v => v | None => [] end;
  s_meta : b_meta _ _ _ _ _ b = flatten (t_meta _ _ _ _ _ s);
  s_good : forall v, b_version _ _ _ _ _ b = v -> v = [] \/ v = version_text }.
Definition fresh (s : jtop M L S V B) (rest : list (option text * yaml)) : Prop :=
  (t_version _ _ _ _ _ s <> None -> ~ In (Some (chars "version")) (map fst rest)) /\
  (t_transform _ _ _ _ _ s <> None -> ~ In (Some (chars "transform")) (map fst rest)) /\
  (t_vars _ _ _ _ _ s <> None -> ~ In (Some (chars "variables")) (map fst rest)) /\
  (t_res _ _ _ _ _ s <> None -> ~ In (Some (chars "resources")) (map fst rest)) /\
  (t_meta _ _ _ _ _ s <> None -> ~ In (Some (chars "metadata")) (map fst rest)).
Definition top_shape (top : list (option text * yaml)) : Prop :=
  forall key v, In (key, v) top ->
       (In key [Some (chars "version"); Some (chars "transform")] /\ exists u, v = YStr u) \/
       (key = Some (chars "variables") /\ exists m, v = YMap m) \/
       (key = Some (chars "metadata") /\ exists m w, v = YMap m /\ In (Some (chars "sharedHandlerConfig"), YMap w) m) \/
       (key = Some (chars "resources") /\ exists rs, v = YMap rs /\ once_keys rs /\
          forall name body, In (name, body) rs -> plain_resource body).
Definition set_in (s : jtop M L S V B) (key : option text) : Prop :=
  (key = Some (chars "version") -> t_version _ _ _ _ _ s <> None) /\ (key = Some (chars "transform") -> t_transform _ _ _ _ _ s <> None) /\
  (key = Some (chars "resources") -> t_res _ _ _ _ _ s <> None).
Ltac eqbs := repeat match goal with |- context [text_eqb (chars ?a) (chars ?b)] => let x := eval vm_compute in (text_eqb (chars a) (chars b)) in change (text_eqb (chars a) (chars b)) with x end; cbn iota.
Ltac keys H := match type of H with _ /\ _ /\ _ /\ _ /\ _ => destruct H as (?F1 & ?F2 & ?F3 & ?F4 & ?F5) end.
Lemma fresh_tail s s' key v rest : fresh s ((key, v) :: rest) -> ~ In key (map fst rest) ->
  (t_version _ _ _ _ _ s' = t_version _ _ _ _ _ s \/ key = Some (chars "version")) -> (t_transform _ _ _ _ _ s' = t_transform _ _ _ _ _ s \/ key = Some (chars "transform")) ->
  (t_vars _ _ _ _ _ s' = t_vars _ _ _ _ _ s \/ key = Some (chars "variables")) -> (t_res _ _ _ _ _ s' = t_res _ _ _ _ _ s \/ key = Some (chars "resources")) ->
  (t_meta _ _ _ _ _ s' = t_meta _ _ _ _ _ s \/ key = Some (chars "metadata")) -> fresh s' rest.
Proof.
  intros (F1 & F2 & F3 & F4 & F5) Hni H1 H2 H3 H4 H5. repeat split; intros Hx.
  - destruct H1 as [H1|H1]; [rewrite H1 in Hx; intros Hi; apply (F1 Hx); now right|now subst].
  - destruct H2 as [H1'|H1']; [rewrite H1' in Hx; intros Hi; apply (F2 Hx); now right|now subst].
  - destruct H3 as [H1'|H1']; [rewrite H1' in Hx; intros Hi; apply (F3 Hx); now right|now subst].
  - destruct H4 as [H1'|H1']; [rewrite H1' in Hx; intros Hi; apply (F4 Hx); now right|now subst].
  - destruct H5 as [H1'|H1']; [rewrite H1' in Hx; intros Hi; apply (F5 Hx); now right|now subst].
Qed.
Lemma sets_shared_in m w : In (Some (chars "sharedHandlerConfig"), YMap w) m -> sets_shared m = true.
Proof. intros H. apply existsb_exists. exists (Some (chars "sharedHandlerConfig"), YMap w). split; [exact H|reflexivity]. Qed.
(** One entry *)
Lemma entry_same s b key v rest : sim s b -> fresh s ((key, v) :: rest) -> ~ In key (map fst rest) -> top_shape [(key, v)] ->
  (exists e, json_entry s (key, v) = Err e /\ yaml_entry b (key, v) = Err e) \/
  (json_entry s (key, v) = Panic /\ yaml_entry b (key, v) = Panic) \/
  (exists s' b', json_entry s (key, v) = Ok s' /\ yaml_entry b (key, v) = Ok b' /\ sim s' b' /\ fresh s' rest /\
     set_in s' key /\ (t_version _ _ _ _ _ s <> None -> t_version _ _ _ _ _ s' <> None) /\ (t_transform _ _ _ _ _ s <> None -> t_transform _ _ _ _ _ s' <> None) /\ (t_res _ _ _ _ _ s <> None -> t_res _ _ _ _ _ s' <> None)).
Proof.
  intros Hsim Hf Hni Hs. pose proof Hf as (F1 & F2 & F3 & F4 & F5). destruct Hsim as [S1 S2 S3 S4 S5 S6].
  destruct (Hs key v (or_introl eq_refl)) as [[[<-|[<-|[]]] (u & ->)]|[[-> (m & ->)]|[[-> (m & w & -> & Hw)]|[-> (rs & -> & [_ Hn] & Hp)]]]];
    unfold BlueprintModel.json_entry, BlueprintModel.yaml_entry, once; cbn [fst snd]; eqbs.
  - destruct (t_version M L S V B s) eqn:Et; [exfalso; apply F1; [congruence|now left]|]. destruct (text_eqb u version_text) eqn:Ev; [|left; exists EFormat; split; reflexivity].
    apply text_eqb_eq in Ev. subst u. right; right. eexists; eexists. split; [reflexivity|]. split; [reflexivity|]. split; [constructor; cbn; auto; intros v <-; now right|].
    split; [eapply fresh_tail; [exact Hf|exact Hni|..]; cbn; auto|]. unfold set_in. cbn. repeat split; try discriminate; auto; congruence.
  - cbn [json_transform obind]. destruct (t_transform M L S V B s) eqn:Et; [exfalso; apply F2; [congruence|now left]|].
    right; right. eexists; eexists. split; [reflexivity|]. split; [reflexivity|]. split; [constructor; cbn; auto|].
    split; [eapply fresh_tail; [exact Hf|exact Hni|..]; cbn; auto|]. unfold set_in. cbn. repeat split; try discriminate; auto; congruence.
  - destruct (t_vars M L S V B s) eqn:Et; [exfalso; apply F3; [congruence|now left]|]. unfold optional. destruct (read_vars (YMap m)); cbn [need omap obind]; [|left; exists EFormat; split; reflexivity].
    right; right. eexists; eexists. split; [reflexivity|]. split; [reflexivity|]. split; [constructor; cbn; auto|].
    split; [eapply fresh_tail; [exact Hf|exact Hni|..]; cbn; auto|]. unfold set_in. cbn. repeat split; try discriminate; auto; congruence.
  - destruct (t_meta M L S V B s) eqn:Et; [exfalso; apply F5; [congruence|now left]|]. rewrite (sets_shared_in _ _ Hw). unfold optional. destruct (read_bmeta (YMap m)); cbn [need omap obind]; [|left; exists EFormat; split; reflexivity].
    right; right. eexists; eexists. split; [reflexivity|]. split; [reflexivity|]. split; [constructor; cbn; auto|].
    split; [eapply fresh_tail; [exact Hf|exact Hni|..]; cbn; auto|]. unfold set_in. cbn. repeat split; try discriminate; auto; congruence.
  - destruct (t_res M L S V B s) eqn:Et; [exfalso; apply F4; [congruence|now left]|]. cbn [json_resources]. unfold yaml_resources. rewrite (resources_same rs Hp Hn []).
    destruct (fold_outcome ystep [] rs) as [l|e|]; cbn [obind]; [|left; exists e; split; reflexivity|right; left; split; reflexivity].
    right; right. eexists; eexists. split; [reflexivity|]. split; [reflexivity|]. split; [constructor; cbn; auto|].
    split; [eapply fresh_tail; [exact Hf|exact Hni|..]; cbn; auto|]. unfold set_in. cbn. repeat split; try discriminate; auto; congruence.
Qed.
Definition set_all (s : jtop M L S V B) (keys : list (option text)) : Prop :=
  (In (Some (chars "version")) keys -> t_version _ _ _ _ _ s <> None) /\ (In (Some (chars "transform")) keys -> t_transform _ _ _ _ _ s <> None) /\
  (In (Some (chars "resources")) keys -> t_res _ _ _ _ _ s <> None).
Lemma top_same rest : forall s b, sim s b -> fresh s rest -> NoDup (map fst rest) -> top_shape rest ->
  (exists e, fold_outcome json_entry s rest = Err e /\ fold_outcome yaml_entry b rest = Err e) \/
  (fold_outcome json_entry s rest = Panic /\ fold_outcome yaml_entry b rest = Panic) \/
  (exists s' b', fold_outcome json_entry s rest = Ok s' /\ fold_outcome yaml_entry b rest = Ok b' /\ sim s' b' /\ set_all s' (map fst rest) /\
    (t_version _ _ _ _ _ s <> None -> t_version _ _ _ _ _ s' <> None) /\ (t_transform _ _ _ _ _ s <> None -> t_transform _ _ _ _ _ s' <> None) /\ (t_res _ _ _ _ _ s <> None -> t_res _ _ _ _ _ s' <> None)).
Proof.
  induction rest as [|[key v] rest IH]; intros s b Hsim Hf Hd Hs.
  - right; right. exists s, b. cbn. split; [reflexivity|]. split; [reflexivity|]. split; [exact Hsim|]. split; [unfold set_all; cbn; tauto|auto].
  - cbn [map fst] in Hd. inversion Hd as [|x l Hni Hd']; subst. cbn [fold_outcome].
    destruct (entry_same s b key v rest Hsim Hf Hni) as [(e & -> & ->)|[[-> ->]|(s1 & b1 & -> & -> & Hsim1 & Hf1 & Hset & K1 & K2 & K3)]].
    + intros k w [H|[]]. injection H as <- <-. apply (Hs key v). now left.
    + left. exists e. split; reflexivity.
    + right; left. split; reflexivity.
    + cbn [obind]. destruct (IH s1 b1 Hsim1 Hf1 Hd') as [(e & -> & ->)|[[-> ->]|(s2 & b2 & -> & -> & Hsim2 & Hall & Q1 & Q2 & Q3)]].
      * intros k w Hin. apply (Hs k w). now right.
      * left. exists e. split; reflexivity.
      * right; left. split; reflexivity.
      * right; right. exists s2, b2. split; [reflexivity|]. split; [reflexivity|]. split; [exact Hsim2|]. cbn [map fst].
        destruct Hset as (G1 & G2 & G3). destruct Hall as (A1 & A2 & A3).
        split; [|auto]. split; [|split]; intros [Hk|Hk]; auto.
Qed.
Lemma documents_same d : plain_document d -> (forall x v, read_vars x = Some v -> vars_typed v = true) ->
  forall b, from_yaml [d] = Ok b <-> from_json d = Ok b.
Proof.
  intros (top & -> & [Hd _] & (t1 & Ht) & (v1 & Hv) & (rs1 & Hr) & Hs) Hty b.
  unfold BlueprintModel.from_yaml, BlueprintModel.from_json, yaml_blueprint, json_blueprint.
  assert (Hsim : sim (jtop0 M L S V B) (empty_blueprint M L S V B)). { constructor; try reflexivity. intros v <-. now left. }
  assert (Hf : fresh (jtop0 M L S V B) top). { repeat split; cbn; congruence. }
  pose proof (fold_inv json_entry (fun s => forall v, t_vars _ _ _ _ _ s = Some (Some v) -> vars_typed v = true) top) as HV.
  destruct (top_same top _ _ Hsim Hf Hd Hs) as [(e & -> & ->)|[[-> ->]|(s & x & Ej & Ey & Hsim' & (A1 & A2 & A3) & _)]]; cbn [obind]; try (split; discriminate).
  rewrite Ej, Ey. cbn [obind]. specialize (HV) with (x := jtop0 M L S V B) (y := s).
  assert (HV' : forall v, t_vars M L S V B s = Some (Some v) -> vars_typed v = true).
  { apply HV; [|discriminate|exact Ej]. clear - Hty. intros s [key v] s' _ HI H. unfold BlueprintModel.json_entry in H. cbn [fst snd] in H. destruct key as [key|]; [|discriminate]. unfold once in H.
    destruct (text_eqb key (chars "version")). { destruct (t_version _ _ _ _ _ s); [discriminate|]. destruct v as [t| | | | | |]; try discriminate. destruct (text_eqb t version_text); [|discriminate]. injection H as <-. exact HI. }
    destruct (text_eqb key (chars "transform")). { destruct (t_transform _ _ _ _ _ s); [discriminate|]. destruct (json_transform v); cbn [obind] in H; try discriminate. injection H as <-. exact HI. }
    destruct (text_eqb key (chars "variables")). { destruct (t_vars _ _ _ _ _ s); [discriminate|]. unfold optional in H. destruct v; cbn [obind] in H; try (injection H as <-; cbn; discriminate);
      match type of H with context [read_vars ?z] => destruct (read_vars z) eqn:Er end; cbn [need omap obind] in H; try discriminate; injection H as <-; cbn; intros w Hw; injection Hw as <-; eapply Hty; exact Er. }
    destruct (text_eqb key (chars "resources")). { destruct (t_res _ _ _ _ _ s); [discriminate|]. destruct (json_resources _ _ _ _ _ _ v); cbn [obind] in H; try discriminate. injection H as <-. exact HI. }
    destruct (text_eqb key (chars "metadata")). { destruct (t_meta _ _ _ _ _ s); [discriminate|]. destruct (optional _ v); cbn [obind] in H; try discriminate. injection H as <-. exact HI. }
    injection H as <-. exact HI. }
  destruct (yaml_doc_kept M L S V B read_meta read_selector read_spec read_vars read_bmeta top x Ey) as [_ Hsp].
  destruct Hsim' as [S1 S2 S3 S4 S5 S6].
  destruct (t_version M L S V B s) as [ver|] eqn:Ev; [|exfalso; apply A1; [apply (in_map fst) in Hv; exact Hv|reflexivity]].
  destruct (t_transform M L S V B s) as [tr|] eqn:Etr; [|exfalso; apply A2; [apply (in_map fst) in Ht; exact Ht|reflexivity]].
  destruct (t_res M L S V B s) as [res|] eqn:Eres; [|exfalso; apply A3; [apply (in_map fst) in Hr; exact Hr|reflexivity]].
  destruct (S6 ver S1) as [-> | ->].
  { (* the version is set only to the expected text *)
    exfalso. clear - Ej Ev. assert (K : forall v, t_version M L S V B s = Some v -> v = version_text); [|specialize (K _ Ev); discriminate].
    revert Ej. apply (fold_inv json_entry (fun s => forall v, t_version M L S V B s = Some v -> v = version_text)); [|discriminate].
    clear s Ev. intros s [key v] s' _ HI H. unfold BlueprintModel.json_entry in H. cbn [fst snd] in H. destruct key as [key|]; [|discriminate]. unfold once in H.
    destruct (text_eqb key (chars "version")). { destruct (t_version _ _ _ _ _ s); [discriminate|]. destruct v as [t| | | | | |]; try discriminate. destruct (text_eqb t version_text) eqn:E; [|discriminate]. apply text_eqb_eq in E. injection H as <-. cbn [t_version]. intros w Hw. congruence. }
    destruct (text_eqb key (chars "transform")). { destruct (t_transform _ _ _ _ _ s); [discriminate|]. destruct (json_transform v); cbn [obind] in H; try discriminate. injection H as <-. exact HI. }
    destruct (text_eqb key (chars "variables")). { destruct (t_vars _ _ _ _ _ s); [discriminate|]. destruct (optional _ v); cbn [obind] in H; try discriminate. injection H as <-. exact HI. }
    destruct (text_eqb key (chars "resources")). { destruct (t_res _ _ _ _ _ s); [discriminate|]. destruct (json_resources _ _ _ _ _ _ v); cbn [obind] in H; try discriminate. injection H as <-. exact HI. }
    destruct (text_eqb key (chars "metadata")). { destruct (t_meta _ _ _ _ _ s); [discriminate|]. destruct (optional _ v); cbn [obind] in H; try discriminate. injection H as <-. exact HI. }
    injection H as <-. exact HI. }
  cbn [obind]. assert (Ex : x = {| b_version := version_text; b_transform := Some tr; b_vars := flatten (t_vars M L S V B s); b_res := res; b_meta := flatten (t_meta M L S V B s) |}).
  { destruct x; cbn in *; subst; reflexivity. }
  rewrite S1, S4. rewrite <- Ex. change (match version_text with [] => Err EFormat | _ :: _ => match res with [] => Err EFormat | _ :: _ => Ok x end end) with (match res with [] => @Err berr _ EFormat | _ :: _ => Ok x end).
  destruct (resolve_blueprint M L S V B RM RS RB resolve_meta resolve_spec resolve_bmeta x) as [rb|e|] eqn:Er.
  - pose proof (resolved_res M L S V B RM RS RB resolve_meta resolve_spec resolve_bmeta x rb Er) as Hrr. rewrite S4 in Hrr, Hsp.
    pose proof (resolve_nonempty M L S RM RS resolve_meta resolve_spec res _ Hsp Hrr) as Hne. cbn [obind]. unfold validate_blueprint.
    assert (Hv2 : rb_vars _ _ _ _ _ rb = flatten (t_vars M L S V B s)).
    { revert Er. unfold resolve_blueprint. rewrite S4, S5, S3. rewrite Hrr. cbn [obind]. destruct (flatten (t_meta M L S V B s)) as [y|]; [destruct (resolve_bmeta y); [|discriminate]|]; intros H; injection H as <-; reflexivity. }
    rewrite Hv2. destruct res as [|r0 res].
    + rewrite (proj1 Hne eq_refl). cbn. split; discriminate.
    + destruct (rb_res L V RM RS RB rb) eqn:Erb; [discriminate (proj2 Hne eq_refl)|]. cbn [obind]. rewrite Er.
      destruct (t_vars M L S V B s) as [[v|]|] eqn:Etv; cbn [flatten]; try tauto. now rewrite (HV' v eq_refl).
  - destruct res; cbn [obind]; [split; discriminate|]. rewrite Er. split; discriminate.
  - destruct res; cbn [obind]; [split; discriminate|]. rewrite Er. split; discriminate.
Qed.
End Params.
