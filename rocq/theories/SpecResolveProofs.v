(** Lemmas for C116 to C118 *)
From Verif Require Import Base Chars SubstModel ResolveModel ResolveSpec ResolveProofs WfYamlModel WfYamlProofs WfResolveModel WfResolveSpec WfResolveProofs SpecYamlModel SpecResolveModel SpecResolveSpec.
Local Open Scope list_scope.

Lemma nameo_ok {A Er B} (f : A -> outcome Er B) (R : A -> B -> Prop) m : (forall e, In e m -> forall b, f (snd e) = Ok b <-> R (snd e) b) ->
  forall r, nameo f m = Ok r <-> named R m r.
Proof.
  intros H. unfold nameo, named. apply mapo_ok. intros [key a] Ha [key' b]. cbn [fst snd]. rewrite obind_ok. split.
  - intros (b' & Hb & X). injection X as <- <-. split; [reflexivity|]. now apply (H (key, a) Ha).
  - intros [-> Hb]. exists b. split; [now apply (H (key', a) Ha)|reflexivity].
Qed.
Lemma nameo_safe {A Er B} (f : A -> outcome Er B) m : (forall e, In e m -> f (snd e) <> Panic) -> nameo f m <> Panic.
Proof. intros H. apply mapo_safe. intros e He. pose proof (H e He). destruct (f (snd e)); cbn; congruence. Qed.
Lemma nget_holds {A} key (m : list (text * A)) v : nget key m = Some v <-> holds m key v.
Proof.
  induction m as [|[k w] m IH]; cbn [nget].
  - split; [discriminate|]. intros ([|] & post & X & _); discriminate.
  - destruct (text_eqb_spec k key) as [->|D].
    + split.
      * intros [= ->]. exists [], m. split; [reflexivity|intros []].
      * intros ([|[k' w'] pre] & post & X & Hn); [now injection X as -> _|]. injection X as <- <- ->. elim Hn. now left.
    + rewrite IH. split.
      * intros (pre & post & -> & Hn). exists ((k, w) :: pre), post. split; [reflexivity|]. cbn. intros [E|E]; contradiction.
      * intros ([|[k' w'] pre] & post & X & Hn); [now injection X as -> _ _|]. injection X as <- <- ->. exists pre, post. split; [reflexivity|]. intros E. apply Hn. now right.
Qed.
Lemma nget_none {A} key (m : list (text * A)) : nget key m = None <-> ~ In key (map fst m).
Proof.
  induction m as [|[k w] m IH]; cbn [nget map fst]; [split; [intros _ []|reflexivity]|].
  destruct (text_eqb_spec k key) as [->|D]; [split; [discriminate|intros H; elim H; now left]|]. rewrite IH. cbn. tauto.
Qed.
Lemma field_ok {A Er B} (f : A -> outcome Er B) R key m : (forall v, holds m key v -> forall b, f v = Ok b <-> R v b) ->
  forall o, opto f (nget key m) = Ok o <-> field_is m key R o.
Proof.
  intros H o. unfold field_is. destruct (nget key m) as [v|] eqn:E; cbn [opto].
  - apply nget_holds in E. rewrite omap_ok. split.
    + intros (b & Hb & ->). left. exists v, b. repeat split; [exact E|now apply (H v E)].
    + intros [(w & b & Hw & Hb & ->)|[Hn _]].
      * exists b. split; [|reflexivity]. apply nget_holds in Hw, E. rewrite E in Hw. injection Hw as ->. apply (H w); [now apply nget_holds|exact Hb].
      * apply nget_none in Hn. apply nget_holds in E. congruence.
  - split; [intros [= <-]; right; split; [now apply nget_none|reflexivity]|].
    intros [(w & b & Hw & _)|[_ ->]]; [|reflexivity]. apply nget_holds in Hw. congruence.
Qed.
Lemma field_safe {A Er B} (f : A -> outcome Er B) key m : (forall v, holds m key v -> f v <> Panic) -> opto f (nget key m) <> Panic.
Proof. intros H. apply opto_safe. intros a Ha. apply H. now apply nget_holds. Qed.

Section Params.
Variable F : Type.
Variable parse_f64 : text -> option F.
Variable env : text -> option text.
Notation txt := (parts_text env).
Notation all := (Forall (proper F)).
Notation str := (resolve_to_string env).

Lemma proper_entry m key n : proper F (NMap F m) -> In (key, n) m -> proper F n.
Proof. intros H Hi d Ho. apply (H (S d)). econstructor; eassumption. Qed.
Lemma holds_in {A} (m : list (text * A)) key v : holds m key v -> In (key, v) m.
Proof. intros (pre & post & -> & _). apply in_or_app. right. now left. Qed.

(** Choices *)
Lemma choice_ok {C} (names : list (text * C)) (f : text -> outcome rerr C) ps c : (forall t c, f t = Ok c <-> In (t, c) names) ->
  (obind (str ps) f = Ok c <-> choice_is env names ps c).
Proof.
  intros H. rewrite obind_ok. unfold choice_is. split; intros (t & Ht & Hc); exists t; (split; [now apply str_ok|now apply H]).
Qed.
Lemma choice_safe {C} (f : text -> outcome rerr C) ps : (forall t, f t <> Panic) -> obind (str ps) f <> Panic.
Proof. intros H. apply bind_safe; [apply str_safe|exact H]. Qed.
Ltac names_tac :=
  repeat match goal with |- context [text_eqb ?t (chars ?s)] => destruct (text_eqb_spec t (chars s)) as [->|?] end;
  (split; [intros X; first [discriminate X|injection X as <-; cbn; auto]
          |intros X; cbn [In] in X; repeat match type of X with _ \/ _ => destruct X as [X|X] end;
             first [contradiction|injection X; intros; subst; first [reflexivity|congruence]|idtac]]).
Lemma protocol_name_ok t c : protocol_name t = Ok c <-> In (t, c) protocol_names.
Proof. unfold protocol_name, protocol_names. names_tac. Qed.
Lemma strategy_name_ok t c : strategy_name t = Ok c <-> In (t, c) strategy_names.
Proof. unfold strategy_name, strategy_names. names_tac. Qed.
Lemma policy_ok ps c : resolve_policy env ps = Ok c <-> policy_is env ps c.
Proof. apply choice_ok. intros t d. unfold policy_names. names_tac. Qed.
Lemma guard_type_rok ps c : resolve_guard_type env ps = Ok c <-> guard_type_is env ps c.
Proof. apply choice_ok. intros t d. unfold guard_names. names_tac. Qed.
Lemma storage_event_ok ps c : resolve_storage_event env ps = Ok c <-> choice_is env storage_event_names ps c.
Proof. apply choice_ok. intros t d. unfold storage_event_names. names_tac. Qed.
Ltac ifs := repeat match goal with |- context [if ?b then _ else _] => destruct b end; discriminate.
Lemma policy_safe ps : resolve_policy env ps <> Panic.
Proof. apply choice_safe. intros t. ifs. Qed.
Lemma guard_type_safe ps : resolve_guard_type env ps <> Panic.
Proof. apply choice_safe. intros t. ifs. Qed.
Lemma storage_event_safe ps : resolve_storage_event env ps <> Panic.
Proof. apply choice_safe. intros t. ifs. Qed.
Lemma strategy_ok n c : resolve_strategy F env n = Ok c <-> node_choice_is F env strategy_names n c.
Proof.
  unfold node_choice_is. destruct n as [[t|z|f|b]|m|l|ps|]; cbn [resolve_strategy].
  2-6,8: split; [discriminate|intros (u & [X|(qs & X & _)] & _); discriminate].
  - rewrite strategy_name_ok. split; [intros H; exists t; auto|intros (u & [X|(qs & X & _)] & G); [injection X as ->; exact G|discriminate]].
  - rewrite obind_ok. split.
    + intros (t & Ht & H). exists t. split; [right; exists ps; split; [reflexivity|now apply str_ok]|now apply strategy_name_ok].
    + intros (t & [X|(qs & X & Ht)] & H); [discriminate|]. injection X as ->. exists t. split; [now apply str_ok|now apply strategy_name_ok].
Qed.
Lemma string_node_ok n t : proper F n -> (node_to_string F parse_f64 env n = Ok t <-> scalar_is F parse_f64 env n (SStr F t)).
Proof.
  intros Hp. unfold node_to_string. rewrite obind_ok. split.
  - intros (s & Es & X). destruct s; try discriminate. injection X as ->. now apply scalar_node_ok.
  - intros X. apply scalar_node_ok in X; [|exact Hp]. eauto.
Qed.
Lemma string_node_safe n : proper F n -> node_to_string F parse_f64 env n <> Panic.
Proof. intros Hp. apply bind_safe; [now apply scalar_node_safe|]. intros [| | |]; discriminate. Qed.
Lemma strategy_safe n : resolve_strategy F env n <> Panic.
Proof. destruct n as [[t|z|f|b]|m|l|ps|]; cbn; try discriminate; [unfold strategy_name; ifs|]. apply choice_safe. intros t. unfold strategy_name. ifs. Qed.
Lemma protocol_ok n p : proper F n -> (resolve_protocol F parse_f64 env n = Ok p <-> protocol_is F parse_f64 env n p).
Proof.
  intros Hp. unfold protocol_is. destruct n as [[t|z|f|b]|m|l|ps|]; cbn [resolve_protocol].
  2-4,6,8: split; [discriminate|intros [(u & [X|(qs & X & _)] & _)|(m & w & a1 & a2 & X & _)]; discriminate].
  - rewrite protocol_name_ok. split; [intros H; left; exists t; auto|intros [(u & [X|(qs & X & _)] & G)|(m & w & a1 & a2 & X & _)]; [injection X as ->; exact G|discriminate|discriminate]].
  - destruct (nget (chars "websocketConfig") m) as [w|] eqn:E.
    + apply nget_holds in E. split.
      * intros H. right. destruct w as [s|w|l|ps|]; try discriminate. cbn [resolve_websocket] in H.
        apply obind_ok in H. destruct H as (a1 & H1 & H). apply obind_ok in H. destruct H as (a2 & H2 & H). injection H as <-.
        assert (Hw : proper F (NMap F w)) by (eapply proper_entry; [exact Hp|apply holds_in; exact E]).
        exists m, w, a1, a2. split; [reflexivity|]. split; [exact E|].
        split; [revert H1; apply field_ok; intros v Hv u; apply string_node_ok; eapply proper_entry; [exact Hw|apply holds_in; exact Hv]|].
        split; [revert H2; apply field_ok; intros v Hv b; apply strategy_ok|reflexivity].
      * intros [(u & [X|(qs & X & _)] & _)|(m' & w' & a1 & a2 & X & Hh & H1 & H2 & ->)]; try discriminate. injection X as <-.
        apply nget_holds in Hh, E. rewrite E in Hh. injection Hh as ->. cbn [resolve_websocket]. apply nget_holds in E.
        assert (Hw : proper F (NMap F w')) by (eapply proper_entry; [exact Hp|apply holds_in; exact E]).
        apply obind_ok. exists a1. split; [revert H1; apply field_ok; intros v Hv u; apply string_node_ok; eapply proper_entry; [exact Hw|apply holds_in; exact Hv]|].
        apply obind_ok. exists a2. split; [revert H2; apply field_ok; intros v Hv b; apply strategy_ok|reflexivity].
    + split; [discriminate|]. intros [(u & [X|(qs & X & _)] & _)|(m' & w' & a1 & a2 & X & Hh & _)]; try discriminate. injection X as <-.
      apply nget_holds in Hh. congruence.
  - rewrite obind_ok. split.
    + intros (t & Ht & H). left. exists t. split; [right; exists ps; split; [reflexivity|now apply str_ok]|now apply protocol_name_ok].
    + intros [(t & [X|(qs & X & Ht)] & H)|(m & w & a1 & a2 & X & _)]; try discriminate. injection X as ->. exists t. split; [now apply str_ok|now apply protocol_name_ok].
Qed.
Lemma protocol_safe n : proper F n -> resolve_protocol F parse_f64 env n <> Panic.
Proof.
  intros Hp. destruct n as [[t|z|f|b]|m|l|ps|]; cbn [resolve_protocol]; try discriminate.
  - unfold protocol_name. ifs.
  - destruct (nget (chars "websocketConfig") m) as [w|] eqn:E; [|intros; discriminate]. apply nget_holds, holds_in in E.
    destruct w as [s|w|l|ps|]; try discriminate. cbn [resolve_websocket].
    assert (Hw : proper F (NMap F w)) by (eapply proper_entry; eassumption).
    apply bind_safe; [apply field_safe; intros v Hv; apply string_node_safe; eapply proper_entry; [exact Hw|apply holds_in; exact Hv]|].
    intros a1. apply bind_safe; [apply field_safe; intros v Hv; apply strategy_safe|]. intros; discriminate.
  - apply choice_safe. intros t. unfold protocol_name. ifs.
Qed.

Lemma strmap_ok m r : nameo str m = Ok r <-> named txt m r.
Proof. apply nameo_ok. intros e _ b. apply str_ok. Qed.
Lemma all_in {A} (V : A -> list (node F)) l : all (flat_map V l) -> forall a, In a l -> all (V a).
Proof. intros H a Ha. apply Forall_forall. intros x Hx. rewrite Forall_forall in H. apply H. apply in_flat_map. eauto. Qed.
Lemma all_one n : all [n] -> proper F n.
Proof. intros H. now inversion H. Qed.
Lemma one_list (o : option (node F)) : all (opt_list o) -> all (flat_map (fun n => [n]) (opt_list o)).
Proof. destruct o; exact (fun H => H). Qed.
Lemma all_opt {A} (V : A -> list (node F)) o : all (flat_map V (opt_list o)) -> forall a, o = Some a -> all (V a).
Proof. intros H a ->. eapply all_in; [exact H|now left]. Qed.

Lemma shared_rok x r : all (shared_values F x) -> (resolve_shared F parse_f64 env x = Ok r <-> shared_is F parse_f64 env x r).
Proof.
  intros Ha. unfold shared_values in Ha. rewrite !Forall_app in Ha. destruct Ha as (A3 & A4 & A5).
  unfold resolve_shared, shared_is.
  pose proof (fun o => opto_ok _ _ (hc_location F x) (fun a Ha b => str_ok env a b) o) as E1.
  pose proof (fun o => opto_ok _ _ (hc_runtime F x) (fun a Ha b => str_ok env a b) o) as E2.
  pose proof (fun o => opto_ok _ _ (hc_memory F x) (fun a Ha b => int_ok F parse_f64 env a b (all_one _ (all_opt (fun n => [n]) _ (one_list _ A3) a Ha))) o) as E3.
  pose proof (fun o => opto_ok _ _ (hc_timeout F x) (fun a Ha b => int_ok F parse_f64 env a b (all_one _ (all_opt (fun n => [n]) _ (one_list _ A4) a Ha))) o) as E4.
  pose proof (fun o => opto_ok _ _ (hc_tracing F x) (fun a Ha b => bool_ok F parse_f64 env a b (all_one _ (all_opt (fun n => [n]) _ (one_list _ A5) a Ha))) o) as E5.
  pose proof (fun o => opto_ok _ _ (hc_env F x) (fun a Ha b => strmap_ok a b) o) as E6.
  split.
  - intros H.
    apply obind_ok in H. destruct H as (a1 & H1 & H).
    apply obind_ok in H. destruct H as (a2 & H2 & H).
    apply obind_ok in H. destruct H as (a3 & H3 & H).
    apply obind_ok in H. destruct H as (a4 & H4 & H).
    apply obind_ok in H. destruct H as (a5 & H5 & H).
    apply obind_ok in H. destruct H as (a6 & H6 & H).
    injection H as <-. cbn. split; [now apply E1|]. split; [now apply E2|]. split; [now apply E3|]. split; [now apply E4|]. split; [now apply E5|]. now apply E6.
  - intros (H1 & H2 & H3 & H4 & H5 & H6). destruct r as [a1 a2 a3 a4 a5 a6]. cbn in *.
    apply E1 in H1. rewrite H1. cbn [obind].
    apply E2 in H2. rewrite H2. cbn [obind].
    apply E3 in H3. rewrite H3. cbn [obind].
    apply E4 in H4. rewrite H4. cbn [obind].
    apply E5 in H5. rewrite H5. cbn [obind].
    apply E6 in H6. rewrite H6. cbn [obind].
    reflexivity.
Qed.
Lemma shared_rsafe x : all (shared_values F x) -> resolve_shared F parse_f64 env x <> Panic.
Proof.
  intros Ha. unfold shared_values in Ha. rewrite !Forall_app in Ha. destruct Ha as (A3 & A4 & A5).
  unfold resolve_shared.
  apply bind_safe; [apply opto_safe; intros a Ha; apply str_safe|]. intros a1.
  apply bind_safe; [apply opto_safe; intros a Ha; apply str_safe|]. intros a2.
  apply bind_safe; [apply opto_safe; intros a Ha; apply int_safe; exact (all_one _ (all_opt (fun n => [n]) _ (one_list _ A3) a Ha))|]. intros a3.
  apply bind_safe; [apply opto_safe; intros a Ha; apply int_safe; exact (all_one _ (all_opt (fun n => [n]) _ (one_list _ A4) a Ha))|]. intros a4.
  apply bind_safe; [apply opto_safe; intros a Ha; apply bool_safe; exact (all_one _ (all_opt (fun n => [n]) _ (one_list _ A5) a Ha))|]. intros a5.
  apply bind_safe; [apply opto_safe; intros a Ha; apply nameo_safe; intros; apply str_safe|]. intros a6.
  discriminate.
Qed.
Lemma handler_rok x r : all (handler_values F x) -> (resolve_handler F parse_f64 env x = Ok r <-> handler_is F parse_f64 env x r).
Proof.
  intros Ha. unfold handler_values in Ha. rewrite !Forall_app in Ha. destruct Ha as (A5 & A6 & A7).
  unfold resolve_handler, handler_is.
  pose proof (fun o => opto_ok _ _ (ha_name F x) (fun a Ha b => str_ok env a b) o) as E1.
  pose proof (fun o => opto_ok _ _ (ha_location F x) (fun a Ha b => str_ok env a b) o) as E2.
  pose proof (fun o => str_ok env (ha_handler F x) o) as E3.
  pose proof (fun o => opto_ok _ _ (ha_runtime F x) (fun a Ha b => str_ok env a b) o) as E4.
  pose proof (fun o => opto_ok _ _ (ha_memory F x) (fun a Ha b => int_ok F parse_f64 env a b (all_one _ (all_opt (fun n => [n]) _ (one_list _ A5) a Ha))) o) as E5.
  pose proof (fun o => opto_ok _ _ (ha_timeout F x) (fun a Ha b => int_ok F parse_f64 env a b (all_one _ (all_opt (fun n => [n]) _ (one_list _ A6) a Ha))) o) as E6.
  pose proof (fun o => opto_ok _ _ (ha_tracing F x) (fun a Ha b => bool_ok F parse_f64 env a b (all_one _ (all_opt (fun n => [n]) _ (one_list _ A7) a Ha))) o) as E7.
  pose proof (fun o => opto_ok _ _ (ha_env F x) (fun a Ha b => strmap_ok a b) o) as E8.
  split.
  - intros H.
    apply obind_ok in H. destruct H as (a1 & H1 & H).
    apply obind_ok in H. destruct H as (a2 & H2 & H).
    apply obind_ok in H. destruct H as (a3 & H3 & H).
    apply obind_ok in H. destruct H as (a4 & H4 & H).
    apply obind_ok in H. destruct H as (a5 & H5 & H).
    apply obind_ok in H. destruct H as (a6 & H6 & H).
    apply obind_ok in H. destruct H as (a7 & H7 & H).
    apply obind_ok in H. destruct H as (a8 & H8 & H).
    injection H as <-. cbn. split; [now apply E1|]. split; [now apply E2|]. split; [now apply E3|]. split; [now apply E4|]. split; [now apply E5|]. split; [now apply E6|]. split; [now apply E7|]. now apply E8.
  - intros (H1 & H2 & H3 & H4 & H5 & H6 & H7 & H8). destruct r as [a1 a2 a3 a4 a5 a6 a7 a8]. cbn in *.
    apply E1 in H1. rewrite H1. cbn [obind].
    apply E2 in H2. rewrite H2. cbn [obind].
    apply E3 in H3. rewrite H3. cbn [obind].
    apply E4 in H4. rewrite H4. cbn [obind].
    apply E5 in H5. rewrite H5. cbn [obind].
    apply E6 in H6. rewrite H6. cbn [obind].
    apply E7 in H7. rewrite H7. cbn [obind].
    apply E8 in H8. rewrite H8. cbn [obind].
    reflexivity.
Qed.
Lemma handler_rsafe x : all (handler_values F x) -> resolve_handler F parse_f64 env x <> Panic.
Proof.
  intros Ha. unfold handler_values in Ha. rewrite !Forall_app in Ha. destruct Ha as (A5 & A6 & A7).
  unfold resolve_handler.
  apply bind_safe; [apply opto_safe; intros a Ha; apply str_safe|]. intros a1.
  apply bind_safe; [apply opto_safe; intros a Ha; apply str_safe|]. intros a2.
  apply bind_safe; [apply str_safe|]. intros a3.
  apply bind_safe; [apply opto_safe; intros a Ha; apply str_safe|]. intros a4.
  apply bind_safe; [apply opto_safe; intros a Ha; apply int_safe; exact (all_one _ (all_opt (fun n => [n]) _ (one_list _ A5) a Ha))|]. intros a5.
  apply bind_safe; [apply opto_safe; intros a Ha; apply int_safe; exact (all_one _ (all_opt (fun n => [n]) _ (one_list _ A6) a Ha))|]. intros a6.
  apply bind_safe; [apply opto_safe; intros a Ha; apply bool_safe; exact (all_one _ (all_opt (fun n => [n]) _ (one_list _ A7) a Ha))|]. intros a7.
  apply bind_safe; [apply opto_safe; intros a Ha; apply nameo_safe; intros; apply str_safe|]. intros a8.
  discriminate.
Qed.
Lemma storage_rok x r : resolve_storage env x = Ok r <-> storage_is env x r.
Proof.
  unfold resolve_storage, storage_is.
  pose proof (fun a => mapo_ok _ _ (os_events x) (fun p _ c => storage_event_ok p c) a) as E2.
  split.
  - intros H. apply obind_ok in H. destruct H as (a1 & H1 & H). apply obind_ok in H. destruct H as (a2 & H2 & H). injection H as <-. cbn. split; [now apply str_ok|now apply E2].
  - intros (H1 & H2). destruct r as [a1 a2]. cbn in *. apply str_ok in H1. apply E2 in H2. rewrite H1. cbn [obind]. rewrite H2. reflexivity.
Qed.
Lemma stream_rok x r : all (stream_values F x) -> (resolve_stream F parse_f64 env x = Ok r <-> stream_is F parse_f64 env x r).
Proof.
  intros Ha. unfold stream_values in Ha. rewrite !Forall_app in Ha. destruct Ha as (A1 & A2 & A3). unfold resolve_stream, stream_is.
  pose proof (fun o => opto_ok _ _ _ (fun n Hn z => int_ok F parse_f64 env n z (opt_in _ _ A1 n Hn)) o) as E1.
  pose proof (fun o => opto_ok _ _ _ (fun n Hn z => bool_ok F parse_f64 env n z (opt_in _ _ A2 n Hn)) o) as E2.
  pose proof (fun o => opto_ok _ _ _ (fun n Hn z => bool_ok F parse_f64 env n z (opt_in _ _ A3 n Hn)) o) as E3.
  split.
  - intros H. apply obind_ok in H. destruct H as (a1 & H1 & H). apply obind_ok in H. destruct H as (a2 & H2 & H). apply obind_ok in H. destruct H as (a3 & H3 & H).
    apply obind_ok in H. destruct H as (a4 & H4 & H). injection H as <-. cbn. split; [now apply str_ok|]. split; [now apply E1|]. split; [now apply E2|now apply E3].
  - intros (H1 & H2 & H3 & H4). destruct r as [a1 a2 a3 a4]. cbn in *. apply str_ok in H1. apply E1 in H2. apply E2 in H3. apply E3 in H4.
    rewrite H2. cbn [obind]. rewrite H1. cbn [obind]. rewrite H3. cbn [obind]. rewrite H4. reflexivity.
Qed.
Lemma stream_rsafe x : all (stream_values F x) -> resolve_stream F parse_f64 env x <> Panic.
Proof.
  intros Ha. unfold stream_values in Ha. rewrite !Forall_app in Ha. destruct Ha as (A1 & A2 & A3). unfold resolve_stream.
  apply bind_safe; [apply opto_safe; intros n Hn; apply int_safe; exact (opt_in _ _ A1 n Hn)|]. intros a1.
  apply bind_safe; [apply str_safe|]. intros a2.
  apply bind_safe; [apply opto_safe; intros n Hn; apply bool_safe; exact (opt_in _ _ A2 n Hn)|]. intros a3.
  apply bind_safe; [apply opto_safe; intros n Hn; apply bool_safe; exact (opt_in _ _ A3 n Hn)|]. intros a4. discriminate.
Qed.
Lemma omap_safe {Er A B} (f : A -> B) (x : outcome Er A) : x <> Panic -> omap f x <> Panic.
Proof. destruct x; cbn; congruence. Qed.
Lemma event_rok x r : all (event_values F x) -> (resolve_event F parse_f64 env x = Ok r <-> event_is F parse_f64 env x r).
Proof.
  intros Ha. unfold resolve_event, event_is, event_values in *. destruct x as [ty x], r as [ty' r]. cbn [fst snd] in *. rewrite obind_ok.
  assert (E : forall s, resolve_event_source F parse_f64 env x = Ok s <-> event_source_is F parse_f64 env x s).
  { intros s. destruct x as [x|x|x]; cbn [resolve_event_source]; rewrite omap_ok; split.
    - intros (y & Hy & ->). constructor. now apply storage_rok.
    - intros H. inversion H; subst. eexists. split; [apply storage_rok; eassumption|reflexivity].
    - intros (y & Hy & ->). constructor. now apply stream_rok.
    - intros H. inversion H; subst. eexists. split; [apply stream_rok; eassumption|reflexivity].
    - intros (y & Hy & ->). constructor. now apply stream_rok.
    - intros H. inversion H; subst. eexists. split; [apply stream_rok; eassumption|reflexivity]. }
  split.
  - intros (s & Hs & [= <- <-]). split; [reflexivity|now apply E].
  - intros (-> & Hs). exists r. split; [now apply E|reflexivity].
Qed.
Lemma event_rsafe x : all (event_values F x) -> resolve_event F parse_f64 env x <> Panic.
Proof.
  intros Ha. unfold resolve_event, event_values in *. destruct x as [ty x]. cbn [fst snd] in *. apply bind_safe; [|intros; discriminate].
  destruct x as [x|x|x]; cbn [resolve_event_source]; apply omap_safe; [|now apply stream_rsafe|now apply stream_rsafe].
  unfold resolve_storage. apply bind_safe; [apply str_safe|]. intros a. apply bind_safe; [|intros; discriminate]. apply mapo_safe. intros b _. apply storage_event_safe.
Qed.
Lemma consumer_rok x r : all (consumer_values F x) -> (resolve_consumer F parse_f64 env x = Ok r <-> consumer_is F parse_f64 env x r).
Proof.
  intros Ha. unfold consumer_values in Ha. rewrite !Forall_app in Ha. destruct Ha as (A2 & A3 & A4 & A5 & A7).
  unfold resolve_consumer, consumer_is.
  pose proof (fun o => opto_ok _ _ (co_source F x) (fun a Ha b => str_ok env a b) o) as E1.
  pose proof (fun o => opto_ok _ _ (co_batch F x) (fun a Ha b => int_ok F parse_f64 env a b (all_one _ (all_opt (fun n => [n]) _ (one_list _ A2) a Ha))) o) as E2.
  pose proof (fun o => opto_ok _ _ (co_visibility F x) (fun a Ha b => int_ok F parse_f64 env a b (all_one _ (all_opt (fun n => [n]) _ (one_list _ A3) a Ha))) o) as E3.
  pose proof (fun o => opto_ok _ _ (co_wait F x) (fun a Ha b => int_ok F parse_f64 env a b (all_one _ (all_opt (fun n => [n]) _ (one_list _ A4) a Ha))) o) as E4.
  pose proof (fun o => opto_ok _ _ (co_partial F x) (fun a Ha b => bool_ok F parse_f64 env a b (all_one _ (all_opt (fun n => [n]) _ (one_list _ A5) a Ha))) o) as E5.
  pose proof (fun o => opto_ok _ _ (co_routing F x) (fun a Ha b => str_ok env a b) o) as E6.
  pose proof (fun o => opto_ok _ _ (co_events F x) (fun a Ha b => nameo_ok _ _ a (fun e He d => event_rok (snd e) d (all_in (fun e => event_values F (snd e)) _ (all_opt (fun l => flat_map (fun e => (event_values F) (snd e)) l) _ A7 a Ha) e He)) b) o) as E7.
  split.
  - intros H.
    apply obind_ok in H. destruct H as (a1 & H1 & H).
    apply obind_ok in H. destruct H as (a2 & H2 & H).
    apply obind_ok in H. destruct H as (a3 & H3 & H).
    apply obind_ok in H. destruct H as (a4 & H4 & H).
    apply obind_ok in H. destruct H as (a5 & H5 & H).
    apply obind_ok in H. destruct H as (a6 & H6 & H).
    apply obind_ok in H. destruct H as (a7 & H7 & H).
    injection H as <-. cbn. split; [now apply E1|]. split; [now apply E2|]. split; [now apply E3|]. split; [now apply E4|]. split; [now apply E5|]. split; [now apply E6|]. now apply E7.
  - intros (H1 & H2 & H3 & H4 & H5 & H6 & H7). destruct r as [a1 a2 a3 a4 a5 a6 a7]. cbn in *.
    apply E1 in H1. rewrite H1. cbn [obind].
    apply E2 in H2. rewrite H2. cbn [obind].
    apply E3 in H3. rewrite H3. cbn [obind].
    apply E4 in H4. rewrite H4. cbn [obind].
    apply E5 in H5. rewrite H5. cbn [obind].
    apply E6 in H6. rewrite H6. cbn [obind].
    apply E7 in H7. rewrite H7. cbn [obind].
    reflexivity.
Qed.
Lemma consumer_rsafe x : all (consumer_values F x) -> resolve_consumer F parse_f64 env x <> Panic.
Proof.
  intros Ha. unfold consumer_values in Ha. rewrite !Forall_app in Ha. destruct Ha as (A2 & A3 & A4 & A5 & A7).
  unfold resolve_consumer.
  apply bind_safe; [apply opto_safe; intros a Ha; apply str_safe|]. intros a1.
  apply bind_safe; [apply opto_safe; intros a Ha; apply int_safe; exact (all_one _ (all_opt (fun n => [n]) _ (one_list _ A2) a Ha))|]. intros a2.
  apply bind_safe; [apply opto_safe; intros a Ha; apply int_safe; exact (all_one _ (all_opt (fun n => [n]) _ (one_list _ A3) a Ha))|]. intros a3.
  apply bind_safe; [apply opto_safe; intros a Ha; apply int_safe; exact (all_one _ (all_opt (fun n => [n]) _ (one_list _ A4) a Ha))|]. intros a4.
  apply bind_safe; [apply opto_safe; intros a Ha; apply bool_safe; exact (all_one _ (all_opt (fun n => [n]) _ (one_list _ A5) a Ha))|]. intros a5.
  apply bind_safe; [apply opto_safe; intros a Ha; apply str_safe|]. intros a6.
  apply bind_safe; [apply opto_safe; intros a Ha; apply nameo_safe; intros e He; apply event_rsafe; exact (all_in (fun e => event_values F (snd e)) _ (all_opt (fun l => flat_map (fun e => (event_values F) (snd e)) l) _ A7 a Ha) e He)|]. intros a7.
  discriminate.
Qed.
Lemma cors_rok x r : all (cors_values F x) -> (resolve_cors F parse_f64 env x = Ok r <-> cors_is F parse_f64 env x r).
Proof.
  intros Ha. unfold cors_values in Ha. rewrite !Forall_app in Ha. destruct Ha as (A1 & A6).
  unfold resolve_cors, cors_is.
  pose proof (fun o => opto_ok _ _ (cr_credentials F x) (fun a Ha b => bool_ok F parse_f64 env a b (all_one _ (all_opt (fun n => [n]) _ (one_list _ A1) a Ha))) o) as E1.
  pose proof (fun o => opto_ok _ _ (cr_origins F x) (fun a Ha b => strs_ok env a b) o) as E2.
  pose proof (fun o => opto_ok _ _ (cr_methods F x) (fun a Ha b => strs_ok env a b) o) as E3.
  pose proof (fun o => opto_ok _ _ (cr_headers F x) (fun a Ha b => strs_ok env a b) o) as E4.
  pose proof (fun o => opto_ok _ _ (cr_expose F x) (fun a Ha b => strs_ok env a b) o) as E5.
  pose proof (fun o => opto_ok _ _ (cr_age F x) (fun a Ha b => int_ok F parse_f64 env a b (all_one _ (all_opt (fun n => [n]) _ (one_list _ A6) a Ha))) o) as E6.
  split.
  - intros H.
    apply obind_ok in H. destruct H as (a1 & H1 & H).
    apply obind_ok in H. destruct H as (a2 & H2 & H).
    apply obind_ok in H. destruct H as (a3 & H3 & H).
    apply obind_ok in H. destruct H as (a4 & H4 & H).
    apply obind_ok in H. destruct H as (a5 & H5 & H).
    apply obind_ok in H. destruct H as (a6 & H6 & H).
    injection H as <-. cbn. split; [now apply E1|]. split; [now apply E2|]. split; [now apply E3|]. split; [now apply E4|]. split; [now apply E5|]. now apply E6.
  - intros (H1 & H2 & H3 & H4 & H5 & H6). destruct r as [a1 a2 a3 a4 a5 a6]. cbn in *.
    apply E1 in H1. rewrite H1. cbn [obind].
    apply E2 in H2. rewrite H2. cbn [obind].
    apply E3 in H3. rewrite H3. cbn [obind].
    apply E4 in H4. rewrite H4. cbn [obind].
    apply E5 in H5. rewrite H5. cbn [obind].
    apply E6 in H6. rewrite H6. cbn [obind].
    reflexivity.
Qed.
Lemma cors_rsafe x : all (cors_values F x) -> resolve_cors F parse_f64 env x <> Panic.
Proof.
  intros Ha. unfold cors_values in Ha. rewrite !Forall_app in Ha. destruct Ha as (A1 & A6).
  unfold resolve_cors.
  apply bind_safe; [apply opto_safe; intros a Ha; apply bool_safe; exact (all_one _ (all_opt (fun n => [n]) _ (one_list _ A1) a Ha))|]. intros a1.
  apply bind_safe; [apply opto_safe; intros a Ha; apply mapo_safe; intros; apply str_safe|]. intros a2.
  apply bind_safe; [apply opto_safe; intros a Ha; apply mapo_safe; intros; apply str_safe|]. intros a3.
  apply bind_safe; [apply opto_safe; intros a Ha; apply mapo_safe; intros; apply str_safe|]. intros a4.
  apply bind_safe; [apply opto_safe; intros a Ha; apply mapo_safe; intros; apply str_safe|]. intros a5.
  apply bind_safe; [apply opto_safe; intros a Ha; apply int_safe; exact (all_one _ (all_opt (fun n => [n]) _ (one_list _ A6) a Ha))|]. intros a6.
  discriminate.
Qed.
Lemma cors_choice_rok x r : all (cors_choice_values F x) -> (resolve_cors_choice F parse_f64 env x = Ok r <-> cors_choice_is F parse_f64 env x r).
Proof.
  intros Ha. destruct x as [ps|x]; cbn [resolve_cors_choice cors_choice_values] in *; rewrite omap_ok; split.
  - intros (y & Hy & ->). constructor. now apply str_ok.
  - intros H. inversion H; subst. eexists. split; [apply str_ok; eassumption|reflexivity].
  - intros (y & Hy & ->). constructor. now apply cors_rok.
  - intros H. inversion H; subst. eexists. split; [apply cors_rok; eassumption|reflexivity].
Qed.
Lemma cors_choice_rsafe x : all (cors_choice_values F x) -> resolve_cors_choice F parse_f64 env x <> Panic.
Proof. intros Ha. destruct x as [ps|x]; cbn in *; apply omap_safe; [apply str_safe|now apply cors_rsafe]. Qed.
Lemma base_rok x r : all (base_values F x) -> (resolve_base F parse_f64 env x = Ok r <-> base_is F parse_f64 env x r).
Proof.
  intros Ha. unfold base_values in Ha. pose proof Ha as A1. clear Ha.
  unfold resolve_base, base_is.
  pose proof (fun o => protocol_ok (bp_protocol F x) o (all_one _ A1)) as E1.
  pose proof (fun o => str_ok env (bp_path F x) o) as E2.
  split.
  - intros H.
    apply obind_ok in H. destruct H as (a1 & H1 & H).
    apply obind_ok in H. destruct H as (a2 & H2 & H).
    injection H as <-. cbn. split; [now apply E1|]. now apply E2.
  - intros (H1 & H2). destruct r as [a1 a2]. cbn in *.
    apply E1 in H1. rewrite H1. cbn [obind].
    apply E2 in H2. rewrite H2. cbn [obind].
    reflexivity.
Qed.
Lemma base_rsafe x : all (base_values F x) -> resolve_base F parse_f64 env x <> Panic.
Proof.
  intros Ha. unfold base_values in Ha. pose proof Ha as A1. clear Ha.
  unfold resolve_base.
  apply bind_safe; [apply protocol_safe; exact (all_one _ A1)|]. intros a1.
  apply bind_safe; [apply str_safe|]. intros a2.
  discriminate.
Qed.
Lemma base_path_rok x r : all (base_path_values F x) -> (resolve_base_path F parse_f64 env x = Ok r <-> base_path_is F parse_f64 env x r).
Proof.
  intros Ha. destruct x as [ps|x]; cbn [resolve_base_path base_path_values] in *; rewrite omap_ok; split.
  - intros (y & Hy & ->). constructor. now apply str_ok.
  - intros H. inversion H; subst. eexists. split; [apply str_ok; eassumption|reflexivity].
  - intros (y & Hy & ->). constructor. now apply base_rok.
  - intros H. inversion H; subst. eexists. split; [apply base_rok; eassumption|reflexivity].
Qed.
Lemma base_path_rsafe x : all (base_path_values F x) -> resolve_base_path F parse_f64 env x <> Panic.
Proof. intros Ha. destruct x as [ps|x]; cbn in *; apply omap_safe; [apply str_safe|now apply base_rsafe]. Qed.
Lemma domain_rok x r : all (domain_values F x) -> (resolve_domain F parse_f64 env x = Ok r <-> domain_is F parse_f64 env x r).
Proof.
  intros Ha. unfold domain_values in Ha. rewrite !Forall_app in Ha. destruct Ha as (A2 & A3).
  unfold resolve_domain, domain_is.
  pose proof (fun o => str_ok env (dm_name F x) o) as E1.
  pose proof (fun o => mapo_ok _ _ (dm_paths F x) (fun c Hc d => base_path_rok c d (all_in (base_path_values F) _ A2 c Hc)) o) as E2.
  pose proof (fun o => opto_ok _ _ (dm_normalize F x) (fun a Ha b => bool_ok F parse_f64 env a b (all_one _ (all_opt (fun n => [n]) _ (one_list _ A3) a Ha))) o) as E3.
  pose proof (fun o => str_ok env (dm_certificate F x) o) as E4.
  pose proof (fun o => opto_ok _ _ (dm_policy F x) (fun a Ha b => policy_ok a b) o) as E5.
  split.
  - intros H.
    apply obind_ok in H. destruct H as (a1 & H1 & H).
    apply obind_ok in H. destruct H as (a2 & H2 & H).
    apply obind_ok in H. destruct H as (a3 & H3 & H).
    apply obind_ok in H. destruct H as (a4 & H4 & H).
    apply obind_ok in H. destruct H as (a5 & H5 & H).
    injection H as <-. cbn. split; [now apply E1|]. split; [now apply E2|]. split; [now apply E3|]. split; [now apply E4|]. now apply E5.
  - intros (H1 & H2 & H3 & H4 & H5). destruct r as [a1 a2 a3 a4 a5]. cbn in *.
    apply E1 in H1. rewrite H1. cbn [obind].
    apply E2 in H2. rewrite H2. cbn [obind].
    apply E3 in H3. rewrite H3. cbn [obind].
    apply E4 in H4. rewrite H4. cbn [obind].
    apply E5 in H5. rewrite H5. cbn [obind].
    reflexivity.
Qed.
Lemma domain_rsafe x : all (domain_values F x) -> resolve_domain F parse_f64 env x <> Panic.
Proof.
  intros Ha. unfold domain_values in Ha. rewrite !Forall_app in Ha. destruct Ha as (A2 & A3).
  unfold resolve_domain.
  apply bind_safe; [apply str_safe|]. intros a1.
  apply bind_safe; [apply mapo_safe; intros c Hc; apply base_path_rsafe; exact (all_in (base_path_values F) _ A2 c Hc)|]. intros a2.
  apply bind_safe; [apply opto_safe; intros a Ha; apply bool_safe; exact (all_one _ (all_opt (fun n => [n]) _ (one_list _ A3) a Ha))|]. intros a3.
  apply bind_safe; [apply str_safe|]. intros a4.
  apply bind_safe; [apply opto_safe; intros a Ha; apply policy_safe|]. intros a5.
  discriminate.
Qed.
Lemma source_rok x r : all (source_values F x) -> (resolve_source F parse_f64 env x = Ok r <-> source_is F parse_f64 env x r).
Proof.
  intros Ha. unfold source_values in Ha. pose proof Ha as A1. clear Ha.
  unfold resolve_source, source_is.
  pose proof (fun o => protocol_ok (vs_protocol F x) o (all_one _ A1)) as E1.
  pose proof (fun o => str_ok env (vs_source F x) o) as E2.
  split.
  - intros H.
    apply obind_ok in H. destruct H as (a1 & H1 & H).
    apply obind_ok in H. destruct H as (a2 & H2 & H).
    injection H as <-. cbn. split; [now apply E1|]. now apply E2.
  - intros (H1 & H2). destruct r as [a1 a2]. cbn in *.
    apply E1 in H1. rewrite H1. cbn [obind].
    apply E2 in H2. rewrite H2. cbn [obind].
    reflexivity.
Qed.
Lemma source_rsafe x : all (source_values F x) -> resolve_source F parse_f64 env x <> Panic.
Proof.
  intros Ha. unfold source_values in Ha. pose proof Ha as A1. clear Ha.
  unfold resolve_source.
  apply bind_safe; [apply protocol_safe; exact (all_one _ A1)|]. intros a1.
  apply bind_safe; [apply str_safe|]. intros a2.
  discriminate.
Qed.
Lemma value_source_rok x r : all (value_source_values F x) -> (resolve_value_source F parse_f64 env x = Ok r <-> value_source_is F parse_f64 env x r).
Proof.
  intros Ha. destruct x as [ps|x]; cbn [resolve_value_source value_source_values] in *; rewrite omap_ok; split.
  - intros (y & Hy & ->). constructor. now apply str_ok.
  - intros H. inversion H; subst. eexists. split; [apply str_ok; eassumption|reflexivity].
  - intros (y & Hy & ->). constructor. now apply source_rok.
  - intros H. inversion H; subst. eexists. split; [apply source_rok; eassumption|reflexivity].
Qed.
Lemma value_source_rsafe x : all (value_source_values F x) -> resolve_value_source F parse_f64 env x <> Panic.
Proof. intros Ha. destruct x as [ps|x]; cbn in *; apply omap_safe; [apply str_safe|now apply source_rsafe]. Qed.
Lemma guard_rok x r : all (guard_values F x) -> (resolve_guard F parse_f64 env x = Ok r <-> guard_is F parse_f64 env x r).
Proof.
  intros Ha. unfold guard_values in Ha. pose proof Ha as A3. clear Ha.
  unfold resolve_guard, guard_is.
  pose proof (fun o => guard_type_rok (gd_type F x) o) as E1.
  pose proof (fun o => opto_ok _ _ (gd_issuer F x) (fun a Ha b => str_ok env a b) o) as E2.
  pose proof (fun o => opto_ok _ _ (gd_token F x) (fun a Ha b => value_source_rok a b (all_opt (value_source_values F) _ A3 a Ha)) o) as E3.
  pose proof (fun o => opto_ok _ _ (gd_audience F x) (fun a Ha b => strs_ok env a b) o) as E4.
  split.
  - intros H.
    apply obind_ok in H. destruct H as (a1 & H1 & H).
    apply obind_ok in H. destruct H as (a2 & H2 & H).
    apply obind_ok in H. destruct H as (a3 & H3 & H).
    apply obind_ok in H. destruct H as (a4 & H4 & H).
    injection H as <-. cbn. split; [now apply E1|]. split; [now apply E2|]. split; [now apply E3|]. now apply E4.
  - intros (H1 & H2 & H3 & H4). destruct r as [a1 a2 a3 a4]. cbn in *.
    apply E1 in H1. rewrite H1. cbn [obind].
    apply E2 in H2. rewrite H2. cbn [obind].
    apply E3 in H3. rewrite H3. cbn [obind].
    apply E4 in H4. rewrite H4. cbn [obind].
    reflexivity.
Qed.
Lemma guard_rsafe x : all (guard_values F x) -> resolve_guard F parse_f64 env x <> Panic.
Proof.
  intros Ha. unfold guard_values in Ha. pose proof Ha as A3. clear Ha.
  unfold resolve_guard.
  apply bind_safe; [apply guard_type_safe|]. intros a1.
  apply bind_safe; [apply opto_safe; intros a Ha; apply str_safe|]. intros a2.
  apply bind_safe; [apply opto_safe; intros a Ha; apply value_source_rsafe; exact (all_opt (value_source_values F) _ A3 a Ha)|]. intros a3.
  apply bind_safe; [apply opto_safe; intros a Ha; apply mapo_safe; intros; apply str_safe|]. intros a4.
  discriminate.
Qed.
Lemma auth_rok x r : all (auth_values F x) -> (resolve_auth F parse_f64 env x = Ok r <-> auth_is F parse_f64 env x r).
Proof.
  intros Ha. unfold auth_values in Ha. unfold resolve_auth, auth_is.
  pose proof (fun o => opt_str_ok env (au_default F x) o) as E1.
  pose proof (fun o => nameo_ok _ _ _ (fun e He b => guard_rok (snd e) b (all_in (fun e => guard_values F (snd e)) _ Ha e He)) o) as E2.
  split.
  - intros H. apply obind_ok in H. destruct H as (a1 & H1 & H). apply obind_ok in H. destruct H as (a2 & H2 & H). injection H as <-. cbn. split; [now apply E1|now apply E2].
  - intros (H1 & H2). destruct r as [a1 a2]. cbn in *. apply E1 in H1. apply E2 in H2. rewrite H1. cbn [obind]. rewrite H2. reflexivity.
Qed.
Lemma auth_rsafe x : all (auth_values F x) -> resolve_auth F parse_f64 env x <> Panic.
Proof.
  intros Ha. unfold auth_values in Ha. unfold resolve_auth. apply bind_safe; [apply opto_safe; intros; apply str_safe|]. intros a1.
  apply bind_safe; [apply nameo_safe; intros e He; apply guard_rsafe; exact (all_in (fun e => guard_values F (snd e)) _ Ha e He)|]. intros; discriminate.
Qed.
Lemma api_rok x r : all (api_values F x) -> (resolve_api F parse_f64 env x = Ok r <-> api_is F parse_f64 env x r).
Proof.
  intros Ha. unfold api_values in Ha. rewrite !Forall_app in Ha. destruct Ha as (A1 & A2 & A3 & A4 & A5).
  unfold resolve_api, api_is.
  pose proof (fun o => mapo_ok _ _ (ap_protocols F x) (fun c Hc d => protocol_ok c d (proj1 (Forall_forall _ _) A1 c Hc)) o) as E1.
  pose proof (fun o => opto_ok _ _ (ap_cors F x) (fun a Ha b => cors_choice_rok a b (all_opt (cors_choice_values F) _ A2 a Ha)) o) as E2.
  pose proof (fun o => opto_ok _ _ (ap_domain F x) (fun a Ha b => domain_rok a b (all_opt (domain_values F) _ A3 a Ha)) o) as E3.
  pose proof (fun o => opto_ok _ _ (ap_auth F x) (fun a Ha b => auth_rok a b (all_opt (auth_values F) _ A4 a Ha)) o) as E4.
  pose proof (fun o => opto_ok _ _ (ap_tracing F x) (fun a Ha b => bool_ok F parse_f64 env a b (all_one _ (all_opt (fun n => [n]) _ (one_list _ A5) a Ha))) o) as E5.
  split.
  - intros H.
    apply obind_ok in H. destruct H as (a1 & H1 & H).
    apply obind_ok in H. destruct H as (a2 & H2 & H).
    apply obind_ok in H. destruct H as (a3 & H3 & H).
    apply obind_ok in H. destruct H as (a4 & H4 & H).
    apply obind_ok in H. destruct H as (a5 & H5 & H).
    injection H as <-. cbn. split; [now apply E1|]. split; [now apply E2|]. split; [now apply E3|]. split; [now apply E4|]. now apply E5.
  - intros (H1 & H2 & H3 & H4 & H5). destruct r as [a1 a2 a3 a4 a5]. cbn in *.
    apply E1 in H1. rewrite H1. cbn [obind].
    apply E2 in H2. rewrite H2. cbn [obind].
    apply E3 in H3. rewrite H3. cbn [obind].
    apply E4 in H4. rewrite H4. cbn [obind].
    apply E5 in H5. rewrite H5. cbn [obind].
    reflexivity.
Qed.
Lemma api_rsafe x : all (api_values F x) -> resolve_api F parse_f64 env x <> Panic.
Proof.
  intros Ha. unfold api_values in Ha. rewrite !Forall_app in Ha. destruct Ha as (A1 & A2 & A3 & A4 & A5).
  unfold resolve_api.
  apply bind_safe; [apply mapo_safe; intros c Hc; apply protocol_safe; exact (proj1 (Forall_forall _ _) A1 c Hc)|]. intros a1.
  apply bind_safe; [apply opto_safe; intros a Ha; apply cors_choice_rsafe; exact (all_opt (cors_choice_values F) _ A2 a Ha)|]. intros a2.
  apply bind_safe; [apply opto_safe; intros a Ha; apply domain_rsafe; exact (all_opt (domain_values F) _ A3 a Ha)|]. intros a3.
  apply bind_safe; [apply opto_safe; intros a Ha; apply auth_rsafe; exact (all_opt (auth_values F) _ A4 a Ha)|]. intros a4.
  apply bind_safe; [apply opto_safe; intros a Ha; apply bool_safe; exact (all_one _ (all_opt (fun n => [n]) _ (one_list _ A5) a Ha))|]. intros a5.
  discriminate.
Qed.
Lemma config_rok x r : (resolve_config env x = Ok r <-> config_is env x r).
Proof.
  unfold resolve_config, config_is.
  pose proof (fun o => opto_ok _ _ (cf_name x) (fun a Ha b => str_ok env a b) o) as E1.
  pose proof (fun o => opto_ok _ _ (cf_plaintext x) (fun a Ha b => strs_ok env a b) o) as E2.
  split.
  - intros H.
    apply obind_ok in H. destruct H as (a1 & H1 & H).
    apply obind_ok in H. destruct H as (a2 & H2 & H).
    injection H as <-. cbn. split; [now apply E1|]. now apply E2.
  - intros (H1 & H2). destruct r as [a1 a2]. cbn in *.
    apply E1 in H1. rewrite H1. cbn [obind].
    apply E2 in H2. rewrite H2. cbn [obind].
    reflexivity.
Qed.
Lemma config_rsafe x : resolve_config env x <> Panic.
Proof.
  unfold resolve_config.
  apply bind_safe; [apply opto_safe; intros a Ha; apply str_safe|]. intros a1.
  apply bind_safe; [apply opto_safe; intros a Ha; apply mapo_safe; intros; apply str_safe|]. intros a2.
  discriminate.
Qed.
Lemma bucket_rok x r : (resolve_bucket env x = Ok r <-> bucket_is env x r).
Proof.
  unfold resolve_bucket, bucket_is.
  pose proof (fun o => opto_ok _ _ (bk_name x) (fun a Ha b => str_ok env a b) o) as E1.
  split.
  - intros H.
    apply obind_ok in H. destruct H as (a1 & H1 & H).
    injection H as <-. cbn.  now apply E1.
  - intros H1. destruct r as [a1]. cbn in *.
    apply E1 in H1. rewrite H1. cbn [obind].
    reflexivity.
Qed.
Lemma bucket_rsafe x : resolve_bucket env x <> Panic.
Proof.
  unfold resolve_bucket.
  apply bind_safe; [apply opto_safe; intros a Ha; apply str_safe|]. intros a1.
  discriminate.
Qed.
Lemma topic_rok x r : all (topic_values F x) -> (resolve_topic F parse_f64 env x = Ok r <-> topic_is F parse_f64 env x r).
Proof.
  intros Ha. unfold topic_values in Ha. pose proof Ha as A2. clear Ha.
  unfold resolve_topic, topic_is.
  pose proof (fun o => opto_ok _ _ (tp_name F x) (fun a Ha b => str_ok env a b) o) as E1.
  pose proof (fun o => opto_ok _ _ (tp_fifo F x) (fun a Ha b => bool_ok F parse_f64 env a b (all_one _ (all_opt (fun n => [n]) _ (one_list _ A2) a Ha))) o) as E2.
  split.
  - intros H.
    apply obind_ok in H. destruct H as (a1 & H1 & H).
    apply obind_ok in H. destruct H as (a2 & H2 & H).
    injection H as <-. cbn. split; [now apply E1|]. now apply E2.
  - intros (H1 & H2). destruct r as [a1 a2]. cbn in *.
    apply E1 in H1. rewrite H1. cbn [obind].
    apply E2 in H2. rewrite H2. cbn [obind].
    reflexivity.
Qed.
Lemma topic_rsafe x : all (topic_values F x) -> resolve_topic F parse_f64 env x <> Panic.
Proof.
  intros Ha. unfold topic_values in Ha. pose proof Ha as A2. clear Ha.
  unfold resolve_topic.
  apply bind_safe; [apply opto_safe; intros a Ha; apply str_safe|]. intros a1.
  apply bind_safe; [apply opto_safe; intros a Ha; apply bool_safe; exact (all_one _ (all_opt (fun n => [n]) _ (one_list _ A2) a Ha))|]. intros a2.
  discriminate.
Qed.
Lemma queue_rok x r : all (queue_values F x) -> (resolve_queue F parse_f64 env x = Ok r <-> queue_is F parse_f64 env x r).
Proof.
  intros Ha. unfold queue_values in Ha. rewrite !Forall_app in Ha. destruct Ha as (A2 & A3).
  unfold resolve_queue, queue_is.
  pose proof (fun o => opto_ok _ _ (qu_name F x) (fun a Ha b => str_ok env a b) o) as E1.
  pose proof (fun o => opto_ok _ _ (qu_fifo F x) (fun a Ha b => bool_ok F parse_f64 env a b (all_one _ (all_opt (fun n => [n]) _ (one_list _ A2) a Ha))) o) as E2.
  pose proof (fun o => opto_ok _ _ (qu_visibility F x) (fun a Ha b => int_ok F parse_f64 env a b (all_one _ (all_opt (fun n => [n]) _ (one_list _ A3) a Ha))) o) as E3.
  split.
  - intros H.
    apply obind_ok in H. destruct H as (a1 & H1 & H).
    apply obind_ok in H. destruct H as (a2 & H2 & H).
    apply obind_ok in H. destruct H as (a3 & H3 & H).
    injection H as <-. cbn. split; [now apply E1|]. split; [now apply E2|]. now apply E3.
  - intros (H1 & H2 & H3). destruct r as [a1 a2 a3]. cbn in *.
    apply E1 in H1. rewrite H1. cbn [obind].
    apply E2 in H2. rewrite H2. cbn [obind].
    apply E3 in H3. rewrite H3. cbn [obind].
    reflexivity.
Qed.
Lemma queue_rsafe x : all (queue_values F x) -> resolve_queue F parse_f64 env x <> Panic.
Proof.
  intros Ha. unfold queue_values in Ha. rewrite !Forall_app in Ha. destruct Ha as (A2 & A3).
  unfold resolve_queue.
  apply bind_safe; [apply opto_safe; intros a Ha; apply str_safe|]. intros a1.
  apply bind_safe; [apply opto_safe; intros a Ha; apply bool_safe; exact (all_one _ (all_opt (fun n => [n]) _ (one_list _ A2) a Ha))|]. intros a2.
  apply bind_safe; [apply opto_safe; intros a Ha; apply int_safe; exact (all_one _ (all_opt (fun n => [n]) _ (one_list _ A3) a Ha))|]. intros a3.
  discriminate.
Qed.
Lemma metadata_rok x r : all (metadata_values F x) -> (resolve_metadata F parse_f64 env x = Ok r <-> metadata_is F parse_f64 env x r).
Proof.
  intros Ha. unfold metadata_values in Ha. pose proof Ha as A2. clear Ha.
  unfold resolve_metadata, metadata_is.
  pose proof (fun o => str_ok env (me_name F x) o) as E1.
  pose proof (fun o => opto_ok _ _ (me_annotations F x) (fun a Ha b => nameo_ok _ _ a (fun e He d => scalar_node_ok F parse_f64 env (snd e) d (proj1 (Forall_forall _ _) (all_opt (map snd) _ A2 a Ha) (snd e) (in_map snd _ e He))) b) o) as E2.
  split.
  - intros H.
    apply obind_ok in H. destruct H as (a1 & H1 & H).
    apply obind_ok in H. destruct H as (a2 & H2 & H).
    injection H as <-. cbn. split; [now apply E1|]. split; [now apply E2|]. reflexivity.
  - intros (H1 & H2 & H3). destruct r as [a1 a2 a3]. cbn in *.
    apply E1 in H1. rewrite H1. cbn [obind].
    apply E2 in H2. rewrite H2. cbn [obind].
    subst a3.
    reflexivity.
Qed.
Lemma metadata_rsafe x : all (metadata_values F x) -> resolve_metadata F parse_f64 env x <> Panic.
Proof.
  intros Ha. unfold metadata_values in Ha. pose proof Ha as A2. clear Ha.
  unfold resolve_metadata.
  apply bind_safe; [apply str_safe|]. intros a1.
  apply bind_safe; [apply opto_safe; intros a Ha; apply nameo_safe; intros e He; apply scalar_node_safe; exact (proj1 (Forall_forall _ _) (all_opt (map snd) _ A2 a Ha) (snd e) (in_map snd _ e He))|]. intros a2.
  discriminate.
Qed.

Lemma spec_rok s r : readable_spec F s -> (resolve_spec F parse_f64 env s = Ok r <-> spec_is F parse_f64 env s r).
Proof.
  intros [Ha Hw]. destruct s as [x|x|x|x|x|x|x|x|x|x]; cbn [resolve_spec spec_values] in *; rewrite omap_ok; (split;
   [intros (y & Hy & ->); constructor|intros H; inversion H; subst; eexists; split; [|reflexivity]]).
  all: first [now apply handler_rok|now apply api_rok|now apply consumer_rok|now apply str_ok|now apply shared_rok|now apply topic_rok|now apply queue_rok
             |now apply config_rok|now apply bucket_rok|apply workflow_ok; [now apply Hw|assumption]].
Qed.
Lemma spec_rsafe s : readable_spec F s -> resolve_spec F parse_f64 env s <> Panic.
Proof.
  intros [Ha Hw]. destruct s as [x|x|x|x|x|x|x|x|x|x]; cbn [resolve_spec spec_values] in *; apply omap_safe.
  all: first [now apply handler_rsafe|now apply api_rsafe|now apply consumer_rsafe|now apply str_safe|now apply shared_rsafe|now apply topic_rsafe|now apply queue_rsafe
             |now apply config_rsafe|now apply bucket_rsafe|apply workflow_safe; now apply Hw].
Qed.
End Params.
