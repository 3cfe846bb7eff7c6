(** C120 to C122: loading a blueprint from YAML, from the document to the resolved resources. *)
From Coq Require Import Permutation.
From Verif Require Import Base Chars SubstModel ResolveModel ResolveSpec BlueprintModel BlueprintProofs BlueprintProps WfYamlModel WfYamlSpec WfYamlProofs WfYamlProps SpecYamlModel SpecYamlSpec SpecYamlProofs SpecYamlProps
  WfResolveModel WfResolveSpec SpecResolveModel SpecResolveSpec SpecResolveProofs SpecResolveProps LoadModel LoadSpec LoadProofs.
Local Open Scope list_scope.

Section Params.
Variable F : Type.
Variable parse_f64 : text -> option F.
Variable k : classes.
Variable env : text -> option text.
Hypothesis Hk : sane k.
Notation load := (load F parse_f64 k env).

(** * C120: a blueprint loads exactly as its document reads *)
Theorem C120_exact : forall m b, one_each (YMap m) -> (load [YMap m] = Ok b <-> document_loads F parse_f64 k env m b).
Proof. intros. now apply document_load. Qed.
(** Only the first document of a text counts, and one that is not a mapping does not load. *)
Theorem C120_first_document : forall d rest, load (d :: rest) = load [d] /\ ((forall m, d <> YMap m) -> load [d] = Err EFormat).
Proof. intros d rest. split; [reflexivity|]. intros H. destruct d; try reflexivity. now elim (H m). Qed.
(** Loading a document never panics, and neither does a reader or a resolver on the way. *)
Theorem C120_never_panics : forall m, one_each (YMap m) ->
  load [YMap m] <> Panic /\
  (forall ty, y_spec F parse_f64 k ty m <> Panic /\ forall s, y_spec F parse_f64 k ty m = Ok s -> resolve_spec F parse_f64 env s <> Panic) /\
  (y_metadata F parse_f64 k m <> Panic /\ forall x, y_metadata F parse_f64 k m = Ok x -> resolve_metadata F parse_f64 env x <> Panic) /\
  resolve_metadata F parse_f64 env (empty_metadata F) <> Panic /\ y_selector m <> Panic /\ y_vars F parse_f64 m <> Panic /\
  (y_blueprint_metadata F k m <> Panic /\ forall x, y_blueprint_metadata F k m = Ok x -> resolve_blueprint_metadata F parse_f64 env x <> Panic).
Proof.
  intros m Hm. destruct (C112_never_panics F parse_f64 k Hk m) as (P1 & P2 & P3 & P4 & P5). destruct (C116_never_panics F parse_f64 env) as (Q1 & Q2 & Q3).
  destruct (C116_readable F parse_f64 k Hk m Hm) as (R1 & R2 & R3).
  split; [unfold LoadModel.load; exact (proj1 (C67_document_read _ _ _ _ _ _ _ _ _ _ _ _ _ (fun _ => true) _ _ _ (YMap m)))|]. split; [intros ty; split; [apply P1|]; intros s Hs; eapply Q1, R1, Hs|]. split; [split; [exact P2|]; intros x Hx; apply Q2, R2, Hx|].
  split; [discriminate|]. split; [exact P3|]. split; [exact P4|]. split; [exact P5|]. intros x Hx. apply Q3. intros y ->. now apply R3.
Qed.
(** The order of the entries of the document does not matter. *)
Theorem C120_key_order : forall m m' b, one_each (YMap m) -> Permutation m m' -> (load [YMap m] = Ok b <-> load [YMap m'] = Ok b).
Proof.
  assert (W : forall m m' b, Permutation m m' -> document_loads F parse_f64 k env m b -> document_loads F parse_f64 k env m' b).
  { intros m m' b P (H1 & H2 & H3 & H4 & (rs & Hi & H5) & H6 & H7). pose proof (perm_in _ _ P) as In1. pose proof (perm_in _ _ (Permutation_sym P)) as In2.
    unfold document_loads. split; [now apply In1|]. split; [exact H2|]. split; [eapply perm_lenient; eassumption|]. split; [eapply perm_lenient; eassumption|].
    split; [exists rs; split; [now apply In1|exact H5]|]. split; [exact H6|]. destruct H7 as [(mm & w & r & A & B & C & D)|(A & B)]; [left|right].
    - exists mm, w, r. split; [now apply In1|auto].
    - split; [|exact B]. intros mm w Hm. apply A. now apply In2. }
  intros m m' b Hm P. pose proof (perm_one_each m m' P Hm) as Hm'. rewrite !C120_exact by assumption. split; apply W; [exact P|now apply Permutation_sym].
Qed.

(** * C121: what is lost *)
(** The resources of the six types are all there, under their names, and no others. *)
Theorem C121_kept_partial : forall m b rs, one_each (YMap m) -> load [YMap m] = Ok b -> In (Some (chars "resources"), YMap rs) m ->
  forall name, In name (map fst (rb_res _ _ _ _ _ b)) <-> exists d t, In (Some name, YMap d) rs /\ In (Some (chars "type"), YStr t) d /\ In t (map fst type_names).
Proof.
  intros m b rs Hm H Hrs name. apply C120_exact in H; [|exact Hm]. destruct H as (_ & _ & _ & _ & (rs' & Hrs' & H) & _).
  assert (rs' = rs) as -> by (assert (E' := keys_once _ _ _ _ (one_each_keys m Hm) Hrs' Hrs); now injection E').
  assert (Hone : forall n d, In (n, d) (named_maps rs) -> one_each (YMap d)).
  { intros n d Hi. unfold named_maps in Hi. apply in_flat_map in Hi. destruct Hi as ([[key|] v] & Hv & Hi); [|destruct Hi]. destruct v; try destruct Hi as [E'|[]]; try destruct Hi. injection E' as <- <-.
    eapply one_each_map; [eapply one_each_map; [exact Hm|exact Hrs]|exact Hv]. }
  assert (N : forall n d, In (n, d) (named_maps rs) <-> In (Some n, YMap d) rs).
  { intros n d. unfold named_maps. rewrite in_flat_map. split.
    - intros ([[key|] v] & Hv & Hi); [|destruct Hi]. destruct v; try destruct Hi as [E'|[]]; try destruct Hi. injection E' as <- <-. exact Hv.
    - intros Hi. exists (Some n, YMap d). split; [exact Hi|now left]. }
  assert (G : In name (map fst (rb_res _ _ _ _ _ b)) <-> exists d t, In (name, d) (named_maps rs) /\ In (Some (chars "type"), YStr t) d /\ In t (map fst type_names)).
  { clear N Hrs Hrs' Hm. revert Hone. induction H as [|n d t l r Ht Hu H IH|n d x l r Hx H IH]; intros Hone.
    - split; [intros []|intros (d & t & [] & _)].
    - rewrite IH by (intros; eapply Hone; right; eassumption). split; intros (d' & t' & Hi & Ht' & Hin'); exists d', t'; (split; [|split; assumption]); [now right|].
      destruct Hi as [E'|Hi]; [|exact Hi]. injection E' as -> ->. exfalso. apply Hu.
      assert (E2 := keys_once _ _ _ _ (one_each_keys _ (Hone _ _ (or_introl eq_refl))) Ht Ht'). injection E2 as ->. exact Hin'.
    - cbn [map fst In]. rewrite IH by (intros; eapply Hone; right; eassumption). split.
      + intros [->|(d' & t' & Hi & Hr)]; [|exists d', t'; split; [now right|exact Hr]]. destruct Hx as ((t & Ht & Hin) & _). exists d, t. split; [now left|]. split; [exact Ht|]. apply in_map_iff. now exists (t, rr_type _ _ _ x).
      + intros (d' & t' & [E'|Hi] & Hr); [left; now injection E'|right; eauto]. }
  rewrite G. split; intros (d & t & Hi & Hr); exists d, t; (split; [now apply N|exact Hr]).
Qed.
(** A resource that is not a mapping, a transform that is not a text, variables or metadata that are
    not a mapping, and an entry under any other key: loading goes on as if they were not there. *)
Theorem C121_lost_refuted : forall pre post v,
  (forall a b name, (forall m, v <> YMap m) ->
     load [YMap (pre ++ (Some (chars "resources"), YMap (a ++ (Some name, v) :: b)) :: post)] = load [YMap (pre ++ (Some (chars "resources"), YMap (a ++ b)) :: post)]) /\
  ((forall t, v <> YStr t) -> load [YMap (pre ++ (Some (chars "transform"), v) :: post)] = load [YMap (pre ++ post)]) /\
  ((forall m, v <> YMap m) -> load [YMap (pre ++ (Some (chars "variables"), v) :: post)] = load [YMap (pre ++ post)] /\
                              load [YMap (pre ++ (Some (chars "metadata"), v) :: post)] = load [YMap (pre ++ post)]) /\
  (forall key, ~ In key (map chars ["version"; "transform"; "variables"; "resources"; "metadata"]%string) -> load [YMap (pre ++ (Some key, v) :: post)] = load [YMap (pre ++ post)]) /\
  (forall a b name c d key, ~ In key (map chars ["type"; "metadata"; "linkSelector"; "description"; "spec"]%string) ->
     load [YMap (pre ++ (Some (chars "resources"), YMap (a ++ (Some name, YMap (c ++ (Some key, v) :: d)) :: b)) :: post)] =
     load [YMap (pre ++ (Some (chars "resources"), YMap (a ++ (Some name, YMap (c ++ d)) :: b)) :: post)]).
Proof.
  intros pre post v. unfold LoadModel.load, from_yaml, yaml_blueprint.
  assert (AT : forall {A E X} (f : X -> A -> outcome E X) e e' l x l', (forall x, f x e = f x e') -> fold_outcome f x (l ++ e :: l') = fold_outcome f x (l ++ e' :: l')).
  { intros A E0 X f e e' l x l' H. rewrite !fold_app. destruct (fold_outcome f x l); cbn [obind fold_outcome]; [|reflexivity|reflexivity]. now rewrite H. }
  split; [|split; [|split; [|split]]].
  - intros a b name Hv. erewrite AT; [reflexivity|]. intros x. unfold yaml_entry. change (text_eqb (chars "resources") (chars "variables")) with false. change (text_eqb (chars "resources") (chars "resources")) with true. cbv iota.
    unfold yaml_resources. rewrite fold_skip; [reflexivity|]. intros y. destruct v; try reflexivity. now elim (Hv m).
  - intros Hv. rewrite fold_skip; [reflexivity|]. intros x. destruct v; try reflexivity. now elim (Hv t).
  - intros Hv. split; (rewrite fold_skip; [reflexivity|]); intros x; destruct v; try reflexivity; now elim (Hv m).
  - intros key Hkey. rewrite fold_skip; [reflexivity|]. intros x. unfold yaml_entry.
    assert (N : forall n, In n ["version"; "transform"; "variables"; "resources"; "metadata"]%string -> text_eqb key (chars n) = false).
    { intros n Hn. destruct (text_eqb_spec key (chars n)) as [->|]; [|reflexivity]. elim Hkey. now apply List.in_map. }
    destruct v; try reflexivity; rewrite !N by (cbn; tauto); reflexivity.
  - intros a b name c d key Hkey. erewrite AT; [reflexivity|]. intros x. unfold yaml_entry. change (text_eqb (chars "resources") (chars "variables")) with false. change (text_eqb (chars "resources") (chars "resources")) with true. cbv iota.
    unfold yaml_resources. erewrite AT; [reflexivity|]. intros y. cbn [yaml_resources_step].
    assert (N : forall n, In n ["type"; "metadata"; "linkSelector"; "description"; "spec"]%string -> text_eqb key (chars n) = false).
    { intros n Hn. destruct (text_eqb_spec key (chars n)) as [->|]; [|reflexivity]. elim Hkey. now apply List.in_map. }
    assert (E1 : yaml_resource (metadata F) (list (text * text)) (spec F) (on_map (y_metadata F parse_f64 k)) (on_map y_selector) (fun ty => on_map (y_spec F parse_f64 k ty)) (c ++ (Some key, v) :: d) =
      yaml_resource (metadata F) (list (text * text)) (spec F) (on_map (y_metadata F parse_f64 k)) (on_map y_selector) (fun ty => on_map (y_spec F parse_f64 k ty)) (c ++ d)).
    { unfold yaml_resource. assert (G : get (chars "type") (c ++ (Some key, v) :: d) = get (chars "type") (c ++ d)).
      { clear AT. induction c as [|[[kx|] w] c IH]; cbn [app get]; [|destruct (text_eqb kx _); [reflexivity|exact IH]|exact IH]. rewrite N by (now left). reflexivity. }
      rewrite G. destruct (get _ (c ++ d)) as [[t| | | | | |]|]; try reflexivity. destruct (yaml_type t) as [ty| |]; cbn [obind]; try reflexivity. rewrite fold_skip; [reflexivity|].
      intros z. unfold yaml_field. cbn [fst snd]. rewrite !N by (cbn; tauto). reflexivity. }
    now rewrite E1.
Qed.

(** * C122: what the declarations of variables are for *)
(** The declarations have no say: with others in their place the same documents load, and only the
    list of declarations differs. *)
Definition with_vars (b : loaded F) (vs : list (text * var F)) : loaded F :=
  {| rb_version := rb_version _ _ _ _ _ b; rb_transform := rb_transform _ _ _ _ _ b; rb_vars := Some vs; rb_res := rb_res _ _ _ _ _ b; rb_meta := rb_meta _ _ _ _ _ b |}.
Theorem C122_declarations_refuted : forall pre post vm vm' vs' b,
  one_each (YMap (pre ++ (Some (chars "variables"), YMap vm) :: post)) -> one_each (YMap vm') -> are_vars F parse_f64 vm' vs' ->
  load [YMap (pre ++ (Some (chars "variables"), YMap vm) :: post)] = Ok b ->
  load [YMap (pre ++ (Some (chars "variables"), YMap vm') :: post)] = Ok (with_vars b vs').
Proof.
  intros pre post vm vm' vs' b Hm Hvm Hvs H.
  assert (Hm' : one_each (YMap (pre ++ (Some (chars "variables"), YMap vm') :: post))).
  { intros m Hi. inversion Hi as [|v l Hin Hv|key v x Hin Hv]; subst.
    - assert (N := one_each_keys _ Hm). unfold keys_of in N |- *. rewrite flat_map_app in N |- *. exact N.
    - apply in_app_or in Hin. destruct Hin as [Hin|[E'|Hin]].
      + apply (Hm m). eapply in_map; [|exact Hv]. apply in_or_app. left. exact Hin.
      + injection E' as <- <-. now apply Hvm.
      + apply (Hm m). eapply in_map; [|exact Hv]. apply in_or_app. right. right. exact Hin. }
  assert (S1 : forall key v, key <> chars "variables" -> In (Some key, v) (pre ++ (Some (chars "variables"), YMap vm) :: post) <-> In (Some key, v) (pre ++ (Some (chars "variables"), YMap vm') :: post)).
  { intros key v Hkey. rewrite !in_app_iff. cbn [In]. assert (D : forall w, (Some (chars "variables"), w) <> (Some key, v)) by (intros w E'; injection E' as E' _; congruence).
    split; (intros [Hi|[Hi|Hi]]; [now left|now elim (D _ Hi)|right; now right]). }
  apply C120_exact in H; [|exact Hm]. apply C120_exact; [exact Hm'|]. destruct H as (H1 & H2 & H3 & H4 & (rs & Hi & H5) & H6 & H7).
  unfold document_loads, with_vars. cbn [rb_version rb_transform rb_vars rb_res rb_meta].
  split; [now apply S1|]. split; [exact H2|]. split; [|split; [|split; [|split; [exact H6|]]]].
  - destruct H3 as [(v & a & Hv & H3)|(H3 & E3)]; [left; exists v, a; split; [now apply S1|exact H3]|right; split; [|exact E3]]. intros v Hv. apply H3. now apply S1.
  - left. exists (YMap vm'), vs'. split; [apply in_or_app; right; now left|]. split; [now exists vm'|]. split; [|reflexivity]. now exists vm'.
  - exists rs. split; [now apply S1|exact H5].
  - destruct H7 as [(mm & w & r & A & B & C & D)|(A & B)]; [left|right].
    + exists mm, w, r. split; [now apply S1|auto].
    + split; [|exact B]. intros mm w Hmm. apply A. now apply S1.
Qed.
(** A variable that the environment does not set keeps the document from loading, whatever default
    the document declares for it. *)
Theorem C122_default_refuted : forall m rs name d sp t n b, one_each (YMap m) ->
  In (Some (chars "resources"), YMap rs) m -> In (Some name, YMap d) rs -> In (Some (chars "type"), YStr (chars "celerity/schedule")) d ->
  In (Some (chars "spec"), YMap sp) d -> In (Some (chars "schedule"), YStr t) sp -> parse_substitutions k t = Ok [Ref n] -> missing env n ->
  load [YMap m] <> Ok b.
Proof.
  intros m rs name d sp t n b Hm Hrs Hd Hty Hsp Ht Hp Hn H. apply C120_exact in H; [|exact Hm]. destruct H as (_ & _ & _ & _ & (rs' & Hrs' & H) & _).
  assert (rs' = rs) as -> by (assert (E' := keys_once _ _ _ _ (one_each_keys m Hm) Hrs' Hrs); now injection E').
  assert (Od : one_each (YMap d)) by (eapply one_each_map; [eapply one_each_map; [exact Hm|exact Hrs]|exact Hd]).
  assert (Os : one_each (YMap sp)) by (eapply one_each_map; [exact Od|exact Hsp]).
  assert (Hi : In (name, d) (named_maps rs)). { unfold named_maps. apply in_flat_map. exists (Some name, YMap d). split; [exact Hd|now left]. }
  revert Hi. induction H as [|n' d' t' l r Ht' Hu H IH|n' d' x l r Hx H IH]; intros Hi; [destruct Hi| |]; (destruct Hi as [E'|Hi]; [injection E' as -> ->|now apply IH]).
  - assert (E2 := keys_once _ _ _ _ (one_each_keys _ Od) Ht' Hty). injection E2 as ->. apply Hu. cbn. tauto.
  - destruct Hx as ((t' & Ht' & Hin) & _ & _ & _ & (v & Hv & m' & -> & s & Hs & Hr)).
    assert (E2 := keys_once _ _ _ _ (one_each_keys _ Od) Ht' Hty). injection E2 as ->.
    assert (E3 := keys_once _ _ _ _ (one_each_keys _ Od) Hv Hsp). injection E3 as ->.
    assert (Ety : rr_type _ _ _ x = TSchedule). { apply type_known in Hin. assert (E5 : yaml_type (chars "celerity/schedule") = Ok TSchedule) by reflexivity. congruence. }
    rewrite Ety in Hs. destruct Hs as (ps & (v & Hv' & u & -> & Hu) & ->). assert (E4 := keys_once _ _ _ _ (one_each_keys _ Os) Hv' Ht). injection E4 as ->.
    assert (ps = [Ref n]) as -> by congruence. inversion Hr as [| | |? r' Hr'| | | | | |]; subst. destruct Hr' as (ts & Hts & _). inversion Hts as [|? u' ? ? Hu']; subst. cbn in Hu'. unfold missing in Hn. unfold variable in Hu'. congruence.
Qed.
End Params.

(** * A document that meets the hypotheses *)
Definition doc (extra : list (option text * yaml)) : list (option text * yaml) :=
  [(K "version", T "2025-05-12"); (K "transform", T "celerity-2025-08-01");
   (K "variables", YMap [(K "size", YMap [(K "type", T "integer"); (K "default", YInt 5); (K "allowedValues", YSeq [YInt 5; YInt 10])])]);
   (K "resources", YMap ([(K "api", YMap [(K "type", T "celerity/api"); (K "metadata", YMap [(K "displayName", T "Orders ${variables.stage}")]);
                                          (K "linkSelector", YMap [(K "byLabel", YMap [(K "app", T "orders")])]); (K "spec", YMap api_doc)]);
                          (K "intake", YMap [(K "type", T "celerity/consumer"); (K "description", T "Takes orders"); (K "spec", YMap consumer_doc)]);
                          (K "table", YMap [(K "type", T "aws/dynamodb/table"); (K "spec", YMap [])]);
                          (K "broken", T "celerity/api")] ++ extra));
   (K "metadata", YMap [(K "sharedHandlerConfig", YMap [(K "runtime", T "nodejs22"); (K "memory", YInt 512)])]);
   (K "notes", T "unused")].
Definition nightly : option text * yaml := (K "nightly", YMap [(K "type", T "celerity/schedule"); (K "spec", YMap [(K "schedule", T "${variables.when}")])]).
Example C120_nonvacuous : one_each (YMap (doc [])) /\
  (exists b, load Z tenths ascii_classes values_for [YMap (doc [])] = Ok b /\ map fst (rb_res _ _ _ _ _ b) = [chars "api"; chars "intake"] /\
     rb_transform _ _ _ _ _ b = Some [chars "celerity-2025-08-01"] /\ map (fun r => rme_name Z (rr_meta _ _ _ (snd r))) (rb_res _ _ _ _ _ b) = [chars "Orders 7"; []] /\
     (exists s, rb_meta _ _ _ _ _ b = Some (Some s) /\ rhc_memory s = Some 512%Z)) /\
  (exists e, load Z tenths ascii_classes (fun _ => None) [YMap (doc [])] = Err e).
Proof.
  split; [apply once_sound; vm_compute; reflexivity|]. split; [|eexists; vm_compute; reflexivity].
  eexists. split; [vm_compute; reflexivity|]. split; [reflexivity|]. split; [reflexivity|]. split; [reflexivity|]. eexists. split; reflexivity.
Qed.
Example C121_nonvacuous :
  In (Some (chars "table"), YMap [(K "type", T "aws/dynamodb/table"); (K "spec", YMap [])]) [(K "table", YMap [(K "type", T "aws/dynamodb/table"); (K "spec", YMap [])])] /\
  (exists b, load Z tenths ascii_classes values_for [YMap (doc [(K "broken2", YSeq [])])] = Ok b /\ load Z tenths ascii_classes values_for [YMap (doc [])] = Ok b) /\
  ~ In (chars "notes") (map chars ["version"; "transform"; "variables"; "resources"; "metadata"]%string).
Proof.
  split; [now left|]. split; [eexists; split; [vm_compute; reflexivity|vm_compute; reflexivity]|]. intros H. vm_compute in H. repeat (destruct H as [H|H]; [discriminate|]). exact H.
Qed.
(** The value 25 of [size] is not one of the allowed values, and [when] has no value. *)
Example C122_nonvacuous : are_vars Z tenths [(K "when", YMap [(K "type", T "string"); (K "default", T "rate(1 hour)")])]
    [(chars "when", {| va_type := chars "string"; va_allowed := None; va_default := Some (SStr Z (chars "rate(1 hour)")); va_description := None; va_secret := None |})] /\
  missing values_for (chars "when") /\ parse_substitutions ascii_classes (chars "${variables.when}") = Ok [Ref (chars "when")] /\ one_each (YMap (doc [nightly])) /\
  (exists b, load Z tenths ascii_classes values_for [YMap (doc [])] = Ok b /\ values_for (chars "CELERITY_VARIABLE_size") = Some (chars "25")) /\
  (exists e, load Z tenths ascii_classes values_for [YMap (doc [nightly])] = Err e).
Proof.
  split; [apply (vars_ok Z tenths); [apply once_sound; vm_compute; reflexivity|vm_compute; reflexivity]|]. split; [reflexivity|]. split; [vm_compute; reflexivity|]. split; [apply once_sound; vm_compute; reflexivity|].
  split; [eexists; split; [vm_compute; reflexivity|reflexivity]|]. eexists. vm_compute. reflexivity.
Qed.

Print Assumptions C120_exact.
Print Assumptions C120_first_document.
Print Assumptions C120_never_panics.
Print Assumptions C120_key_order.
Print Assumptions C121_kept_partial.
Print Assumptions C121_lost_refuted.
Print Assumptions C122_declarations_refuted.
Print Assumptions C122_default_refuted.
