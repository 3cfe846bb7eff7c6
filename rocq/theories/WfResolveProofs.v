(** Lemmas for C109 and C110 *)
From Verif Require Import Base Chars SubstModel ResolveModel ResolveSpec ResolveProofs ResolveProps WfYamlModel WfYamlProofs WfTypes WfResolveModel WfResolveSpec.
Local Open Scope list_scope.

Lemma mapo_ok {A E B} (f : A -> outcome E B) (R : A -> B -> Prop) l : (forall a, In a l -> forall b, f a = Ok b <-> R a b) ->
  forall r, mapo f l = Ok r <-> Forall2 R l r.
Proof.
  induction l as [|a l IH]; intros H r; cbn [mapo].
  - split; [intros X; injection X as <-; constructor|intros X; inversion X; reflexivity].
  - split.
    + intros X. apply obind_ok in X. destruct X as (b & Eb & X). apply obind_ok in X. destruct X as (bs & Ebs & X). injection X as <-.
      constructor; [apply H; [now left|exact Eb]|]. apply IH; [|exact Ebs]. intros a' Ha'. apply H. now right.
    + intros X. inversion X as [|a' b l' bs Hab Hl]; subst. apply (H a (or_introl eq_refl)) in Hab. rewrite Hab. cbn [obind].
      apply IH in Hl; [|intros a' Ha'; apply H; now right]. rewrite Hl. reflexivity.
Qed.
Lemma opto_ok {A E B} (f : A -> outcome E B) (R : A -> B -> Prop) o : (forall a, o = Some a -> forall b, f a = Ok b <-> R a b) ->
  forall r, opto f o = Ok r <-> both R o r.
Proof.
  intros H r. destruct o as [a|]; cbn [opto].
  - rewrite omap_ok. split.
    + intros (b & Eb & ->). constructor. now apply H.
    + intros X. inversion X as [|a' b Hab]; subst. exists b. split; [now apply H|reflexivity].
  - split; [intros X; injection X as <-; constructor|intros X; inversion X; reflexivity].
Qed.
Lemma listed_ok {A E B} (f : A -> outcome E B) (R : A -> B -> Prop) o : (forall a, In a (opt_lists o) -> forall b, f a = Ok b <-> R a b) ->
  forall r, opto (mapo f) o = Ok r <-> listed R o r.
Proof. intros H. apply opto_ok. intros l ->. apply mapo_ok. exact H. Qed.

Lemma mapo_safe {A E B} (f : A -> outcome E B) l : (forall a, In a l -> f a <> Panic) -> mapo f l <> Panic.
Proof.
  induction l as [|a l IH]; intros H; cbn [mapo]; [discriminate|].
  pose proof (H a (or_introl eq_refl)). destruct (f a); cbn [obind]; [|discriminate|congruence].
  pose proof (IH (fun x Hx => H x (or_intror Hx))). destruct (mapo f l); cbn [obind]; [discriminate|discriminate|congruence].
Qed.
Lemma opto_safe {A E B} (f : A -> outcome E B) o : (forall a, o = Some a -> f a <> Panic) -> opto f o <> Panic.
Proof. destruct o as [a|]; intros H; cbn [opto]; [|discriminate]. pose proof (H a eq_refl). destruct (f a); cbn; congruence. Qed.
Lemma bind_safe {E A B} (x : outcome E A) (f : A -> outcome E B) : x <> Panic -> (forall a, f a <> Panic) -> obind x f <> Panic.
Proof. destruct x; cbn; auto; discriminate. Qed.

Section Params.
Variable F : Type.
Variable parse_f64 : text -> option F.
Variable env : text -> option text.

Lemma str_ok ps t : resolve_to_string env ps = Ok t <-> parts_text env ps t.
Proof. apply C54_string. Qed.
Lemma opt_str_ok o r : opto (resolve_to_string env) o = Ok r <-> both (parts_text env) o r.
Proof. apply opto_ok. intros. apply str_ok. Qed.
Lemma strs_ok l r : mapo (resolve_to_string env) l = Ok r <-> Forall2 (parts_text env) l r.
Proof. apply mapo_ok. intros. apply str_ok. Qed.

Lemma scalar_node_ok n s : proper F n -> (node_to_scalar F parse_f64 env n = Ok s <-> scalar_is F parse_f64 env n s).
Proof.
  intros Hp. destruct n as [s0|m|l|ps|]; cbn [node_to_scalar]; unfold scalar_is.
  - split; [intros X; injection X as <-; now left|intros [X|(ps & X & _)]; [now injection X as ->|discriminate]].
  - split; [discriminate|intros [X|(ps & X & _)]; discriminate].
  - split; [discriminate|intros [X|(ps & X & _)]; discriminate].
  - assert (Hne : ps <> []) by (intros ->; apply (Hp 0); constructor). rewrite (proj1 (C54_typed F parse_f64 env ps Hne) s).
    split; [intros X; right; eauto|intros [X|(qs & X & Y)]; [discriminate|now injection X as ->]].
  - split; [discriminate|intros [X|(ps & X & _)]; discriminate].
Qed.
Lemma int_ok n z : proper F n -> (node_to_int F parse_f64 env n = Ok z <-> int_is F parse_f64 env n z).
Proof.
  intros Hp. unfold node_to_int, int_is. rewrite obind_ok. split.
  - intros (s & Es & X). destruct s; try discriminate. injection X as ->. now apply scalar_node_ok.
  - intros X. apply scalar_node_ok in X; [|exact Hp]. eauto.
Qed.
Lemma bool_ok n z : proper F n -> (node_to_bool F parse_f64 env n = Ok z <-> bool_is F parse_f64 env n z).
Proof.
  intros Hp. unfold node_to_bool, bool_is. rewrite obind_ok. split.
  - intros (s & Es & X). destruct s; try discriminate. injection X as ->. now apply scalar_node_ok.
  - intros X. apply scalar_node_ok in X; [|exact Hp]. eauto.
Qed.
Lemma float_ok n z : proper F n -> (node_to_float F parse_f64 env n = Ok z <-> float_is F parse_f64 env n z).
Proof.
  intros Hp. unfold node_to_float, float_is. rewrite obind_ok. split.
  - intros (s & Es & X). destruct s; try discriminate. injection X as ->. now apply scalar_node_ok.
  - intros X. apply scalar_node_ok in X; [|exact Hp]. eauto.
Qed.

(** What resolves has one resolution, and misses no variable. *)
Lemma scalar_unique ps s s' : parts_scalar F parse_f64 env ps s -> parts_scalar F parse_f64 env ps s' -> s = s'.
Proof.
  intros H H'. destruct H as [n v s Hv Ht|ps t Hn Ht].
  - inversion H' as [n' v' s'' Hv' Ht'|ps' t' Hn' Ht']; subst; [|now elim (Hn' n)]. unfold variable in *. assert (v = v') by congruence. subst.
    eapply typed_unique; eassumption.
  - inversion H' as [n' v' s'' Hv' Ht'|ps' t' Hn' Ht']; subst; [now elim (Hn n')|].
    apply str_ok in Ht, Ht'. congruence.
Qed.
Lemma resolved_unique n : forall r r', resolved F parse_f64 env n r -> resolved F parse_f64 env n r' -> r = r'.
Proof.
  induction n as [s| |ps|l IH|m IH] using node_induction; intros r r' H H'; inversion H; subst; inversion H'; subst; try reflexivity.
  - f_equal. eapply scalar_unique; eassumption.
  - f_equal. match goal with A : Forall2 _ _ ?x, B : Forall2 _ _ ?y |- ?x = ?y => clear - IH A B; revert x A y B end.
    induction IH as [|v l Hv _ IHl]; intros x A y B; inversion A; inversion B; subst; [reflexivity|]. f_equal; [now apply Hv|now apply IHl].
  - f_equal. match goal with A : Forall2 _ _ ?x, B : Forall2 _ _ ?y |- ?x = ?y => clear - IH A B; revert x A y B end.
    induction IH as [|v l Hv _ IHl]; intros x A y B; inversion A as [|? [? ?] ? ? [? ?]]; inversion B as [|? [? ?] ? ? [? ?]]; subst; [reflexivity|]. cbn in *. f_equal; [f_equal; [congruence|now apply Hv]|now apply IHl].
Qed.
Lemma resolved_not_missing n : forall r, resolved F parse_f64 env n r -> ~ node_missing F env n.
Proof.
  induction n as [s| |ps|l IH|m IH] using node_induction; intros r H (d & qs & Ho & Hq).
  - inversion Ho.
  - inversion Ho.
  - inversion Ho; subst. inversion H; subst. eapply scalar_not_missing; eassumption.
  - inversion Ho as [|d' x y l' Hy Hoy|]; subst. inversion H as [| | |l' r' Hl|]; subst. clear - IH Hy Hoy Hq Hl. revert r' Hl.
    induction IH as [|v l Hv _ IHl]; intros r Hl; inversion Hl; subst; [destruct Hy|]. destruct Hy as [->|Hy]; [|eapply IHl; eassumption].
    eapply Hv; [eassumption|]. exists d', qs. auto.
  - inversion Ho as [| |d' x y key m' Hy Hoy]; subst. inversion H as [| | | |m' r' Hl]; subst. clear - IH Hy Hoy Hq Hl. revert r' Hl.
    induction IH as [|v l Hv _ IHl]; intros r Hl; inversion Hl as [|? ? ? ? [? ?]]; subst; [destruct Hy|]. destruct Hy as [->|Hy]; [|eapply IHl; eassumption].
    eapply Hv; [eassumption|]. exists d', qs. auto.
Qed.
Lemma node_at_ok d n r : d <= 20 -> proper F n -> (resolve_node F parse_f64 env d n = Ok r <-> value_is F parse_f64 env (20 - d) n r).
Proof.
  intros Hd Hp. unfold value_is. destruct (resolve_node_spec F parse_f64 env n d Hd Hp) as [(D & M & r0 & R & E)|(_ & G)]; change max_resolve_depth with 20 in *.
  - rewrite E. split; [intros X; injection X as <-; auto|intros [X _]; now rewrite (resolved_unique _ _ _ R X)].
  - split; [intros X; destruct G as [[E _]|[E _]]; congruence|]. intros [X Y]. destruct G as [[_ G]|[_ G]]; [contradiction|]. now elim (resolved_not_missing _ _ X).
Qed.
Lemma node_at_safe d n : d <= 20 -> proper F n -> resolve_node F parse_f64 env d n <> Panic.
Proof. intros Hd Hp. destruct (resolve_node_spec F parse_f64 env n d Hd Hp) as [(D & M & r0 & R & E)|(_ & [[G _]|[G _]])]; congruence. Qed.

Lemma str_safe ps : resolve_to_string env ps <> Panic.
Proof. destruct (to_string_total env ps) as [(t & H)|[_ H]]; [rewrite (to_string_ok _ _ _ H)|]; congruence. Qed.
Lemma scalar_node_safe n : proper F n -> node_to_scalar F parse_f64 env n <> Panic.
Proof.
  intros Hp. destruct n; try discriminate. cbn. assert (Hne : ps <> []) by (intros ->; apply (Hp 0); constructor).
  destruct (scalar_total F parse_f64 env ps Hne) as [(s & H)|[_ H]]; [rewrite (scalar_ok _ _ _ _ _ Hne H)|]; congruence.
Qed.

Lemma wait_ok w r : resolve_wait env w = Ok r <-> wait_is env w r.
Proof.
  unfold resolve_wait, wait_is. split.
  - intros X. apply obind_ok in X. destruct X as (a & Ea & X). apply obind_ok in X. destruct X as (b & Eb & X). injection X as <-. cbn.
    rewrite <- !opt_str_ok. auto.
  - destruct r as [a b]. cbn. rewrite <- !opt_str_ok. intros (-> & ->). reflexivity.
Qed.
Lemma failure_ok w r : resolve_failure env w = Ok r <-> failure_is env w r.
Proof.
  unfold resolve_failure, failure_is. split.
  - intros X. apply obind_ok in X. destruct X as (a & Ea & X). apply obind_ok in X. destruct X as (b & Eb & X). injection X as <-. cbn.
    rewrite <- !opt_str_ok. auto.
  - destruct r as [a b]. cbn. rewrite <- !opt_str_ok. intros (-> & ->). reflexivity.
Qed.
Lemma catch_ok c r : resolve_catch env c = Ok r <-> catch_is env c r.
Proof.
  unfold resolve_catch, catch_is. split.
  - intros X. apply obind_ok in X. destruct X as (a & Ea & X). apply obind_ok in X. destruct X as (b & Eb & X). apply obind_ok in X. destruct X as (d & Ed & X). injection X as <-. cbn.
    rewrite <- strs_ok, <- str_ok, <- opt_str_ok. auto.
  - destruct r as [a b d]. cbn. rewrite <- strs_ok, <- str_ok, <- opt_str_ok. intros (-> & -> & ->). reflexivity.
Qed.
Lemma opt_in {A} (P : A -> Prop) o : Forall P (opt_list o) -> forall a, o = Some a -> P a.
Proof. intros H a ->. now inversion H. Qed.
Lemma retry_ok y r : Forall (proper F) (retry_values F y) -> (resolve_retry F parse_f64 env y = Ok r <-> retry_is F parse_f64 env y r).
Proof.
  intros H. unfold retry_values in H. rewrite !Forall_app in H. destruct H as (H1 & H2 & H3 & H4 & H5).
  pose proof (opto_ok (node_to_int F parse_f64 env) (int_is F parse_f64 env) _ (fun n e z => int_ok n z (opt_in _ _ H1 n e))) as K1.
  pose proof (opto_ok (node_to_int F parse_f64 env) (int_is F parse_f64 env) _ (fun n e z => int_ok n z (opt_in _ _ H2 n e))) as K2.
  pose proof (opto_ok (node_to_int F parse_f64 env) (int_is F parse_f64 env) _ (fun n e z => int_ok n z (opt_in _ _ H3 n e))) as K3.
  pose proof (opto_ok (node_to_bool F parse_f64 env) (bool_is F parse_f64 env) _ (fun n e z => bool_ok n z (opt_in _ _ H4 n e))) as K4.
  pose proof (opto_ok (node_to_float F parse_f64 env) (float_is F parse_f64 env) _ (fun n e z => float_ok n z (opt_in _ _ H5 n e))) as K5.
  unfold resolve_retry, retry_is. split.
  - intros X. repeat (apply obind_ok in X; let a := fresh "a" in let E := fresh "E" in destruct X as (a & E & X)). injection X as <-. cbn.
    rewrite <- strs_ok, <- K1, <- K2, <- K3, <- K4, <- K5. auto 10.
  - destruct r. cbn. rewrite <- strs_ok, <- K1, <- K2, <- K3, <- K4, <- K5. intros (-> & -> & -> & -> & -> & ->). reflexivity.
Qed.
Lemma type_ok ps ty : resolve_type env ps = Ok ty <-> type_is env ps ty.
Proof.
  unfold resolve_type, type_is. rewrite obind_ok.
  assert (T : forall t, type_of_name t ty <-> (if text_eqb t (chars "executeStep") then ExecuteStep
      else if text_eqb t (chars "pass") then Pass else if text_eqb t (chars "parallel") then Parallel else if text_eqb t (chars "wait") then Wait
      else if text_eqb t (chars "decision") then Decision else if text_eqb t (chars "failure") then Failure
      else if text_eqb t (chars "success") then Success else Unknown) = ty).
  { intros t. unfold type_of_name, type_names. cbn [In].
    repeat match goal with |- context [if text_eqb t ?c then _ else _] => destruct (text_eqb_spec t c) as [->|?] end.
    8: { split; [intros [H|[_ H]]; [repeat (destruct H as [H|H]; [injection H; congruence|]); destruct H|congruence]|].
         intros <-. right. split; [|reflexivity]. intros ty' H. repeat (destruct H as [H|H]; [injection H; congruence|]). destruct H. }
    all: split; [|intros <-; left; clear; tauto].
    all: intros [H|[H _]]; [|exfalso; eapply H; clear; tauto].
    all: repeat (destruct H as [H|H]; [solve [injection H; congruence]|]); destruct H. }
  split.
  - intros (t & E & X). injection X as X. exists t. split; [now apply str_ok|now apply T].
  - intros (t & E & X). exists t. split; [now apply str_ok|]. f_equal. now apply T.
Qed.
Lemma condition_ok c r : Forall (proper F) (condition_values F c) -> (resolve_condition F parse_f64 env 2 c = Ok r <-> condition_is F parse_f64 env c r).
Proof.
  intros H. unfold condition_values in H. rewrite Forall_forall in H.
  pose proof (mapo_ok (resolve_node F parse_f64 env 4) (value_is F parse_f64 env 16) (sc_inputs F c) (fun n Hn r => node_at_ok 4 n r ltac:(lia) (H n Hn))) as K.
  unfold resolve_condition, condition_is. change (2 + 1 + 1) with 4. split.
  - intros X. apply obind_ok in X. destruct X as (a & Ea & X). apply obind_ok in X. destruct X as (b & Eb & X). injection X as <-. cbn. rewrite <- K, <- str_ok. auto.
  - destruct r. cbn. rewrite <- K, <- str_ok. intros (-> & ->). reflexivity.
Qed.
Lemma all_flat {A B} (P : B -> Prop) (f : A -> list B) l : Forall P (flat_map f l) -> forall a, In a l -> Forall P (f a).
Proof. intros H a Ha. rewrite Forall_forall in *. intros b Hb. apply H. apply in_flat_map. eauto. Qed.
Lemma rule_ok u r : Forall (proper F) (rule_values F u) -> (resolve_rule F parse_f64 env 0 u = Ok r <-> rule_is F parse_f64 env u r).
Proof.
  intros H. unfold rule_values in H. pose proof (all_flat _ _ _ H) as H'.
  pose proof (listed_ok (resolve_condition F parse_f64 env 2) (condition_is F parse_f64 env) (su_and F u)
    (fun c Hc r => condition_ok c r (H' c ltac:(rewrite !in_app_iff; tauto)))) as K1.
  pose proof (listed_ok (resolve_condition F parse_f64 env 2) (condition_is F parse_f64 env) (su_or F u)
    (fun c Hc r => condition_ok c r (H' c ltac:(rewrite !in_app_iff; tauto)))) as K2.
  pose proof (opto_ok (resolve_condition F parse_f64 env 2) (condition_is F parse_f64 env) (su_not F u)
    (fun c Hc r => condition_ok c r (H' c ltac:(rewrite !in_app_iff, Hc; cbn; tauto)))) as K3.
  pose proof (opto_ok (resolve_condition F parse_f64 env 2) (condition_is F parse_f64 env) (su_condition F u)
    (fun c Hc r => condition_ok c r (H' c ltac:(rewrite !in_app_iff, Hc; cbn; tauto)))) as K4.
  unfold resolve_rule, rule_is, resolve_opt_condition, resolve_opt_conditions. change (Nat.ltb max_resolve_depth 0) with false. cbv iota. change (0 + 1 + 1) with 2. split.
  - intros X. repeat (apply obind_ok in X; let a := fresh "a" in let E := fresh "E" in destruct X as (a & E & X)). injection X as <-. cbn.
    rewrite <- K1, <- K2, <- K3, <- K4, <- str_ok. auto 10.
  - destruct r. cbn. rewrite <- K1, <- K2, <- K3, <- K4, <- str_ok. intros (E1 & E2 & E3 & E4 & E5). unfold resolve_opt_condition, resolve_opt_conditions.
    rewrite E1, E2, E3, E4, E5. reflexivity.
Qed.
Lemma payload_ok o r : Forall (proper F) (map snd (opt_lists o)) ->
  (resolve_payload F parse_f64 env o = Ok r <-> both (named (value_is F parse_f64 env 19)) o r).
Proof.
  intros H. unfold resolve_payload. destruct o as [m|]; cbn [opto opt_lists] in *.
  2:{ cbn. split; [intros X; injection X as <-; constructor|intros X; inversion X; reflexivity]. }
  assert (Hp : proper F (NMap F m)).
  { intros d Ho. inversion Ho as [| |d' x y key m' Hy Hoy]; subst. rewrite Forall_forall in H. refine (H y _ d' Hoy). apply in_map_iff. exists (key, y). auto. }
  assert (G : forall rm, value_is F parse_f64 env 20 (NMap F m) (RMap F rm) <-> named (value_is F parse_f64 env 19) m rm).
  { intros rm. unfold value_is, named. split.
    - intros (R & D). inversion R as [| | | |m' r' Hl]; subst.
      assert (D' : forall e, In e m -> ~ deeper_than F 19 (snd e)).
      { intros [key v] He (d & x & Hlt & Ho). apply D. exists (S d), x. split; [lia|]. econstructor; eassumption. }
      clear - Hl D'. induction Hl as [|a b l l' [Ha Hb] Hl IH]; constructor; [split; [exact Ha|split; [exact Hb|apply D'; now left]]|]. apply IH. intros e He. apply D'. now right.
    - intros Hn. split; [constructor; induction Hn as [|a b l l' (Ha & Hb & _) Hl IH]; constructor; [auto|]|].
      + apply IH; [now inversion H|]. intros d Ho. inversion Ho; subst. eapply (Hp (S d0)). econstructor; [right; eassumption|assumption].
      + intros (d & x & Hlt & Ho). inversion Ho as [| |d' x' y key m' Hy Hoy]; subst; [lia|].
        assert (K : ~ deeper_than F 19 y).
        { clear - Hn Hy. induction Hn as [|a b l l' (_ & _ & Ha) Hl IH]; [destruct Hy|]. destruct Hy as [->|Hy]; [exact Ha|auto]. }
        apply K. exists d', x. split; [lia|exact Hoy]. }
  destruct (resolve_node F parse_f64 env 0 (NMap F m)) as [rn|e|] eqn:E; cbn [omap obind].
  - assert (V : value_is F parse_f64 env 20 (NMap F m) rn) by (apply (node_at_ok 0); [lia|exact Hp|exact E]). destruct V as (R & D).
    inversion R as [| | | |m' r' Hl]; subst. split.
    + intros X. injection X as <-. constructor. apply G. split; assumption.
    + intros X. inversion X as [|a b Hab]; subst. apply G in Hab. destruct Hab as (R' & _). pose proof (resolved_unique _ _ _ R R') as U. injection U as ->. reflexivity.
  - split; [discriminate|]. intros X. inversion X as [|a b Hab]; subst. apply G in Hab. apply (node_at_ok 0) in Hab; [congruence|lia|exact Hp].
  - split; [discriminate|]. intros X. inversion X as [|a b Hab]; subst. apply G in Hab. apply (node_at_ok 0) in Hab; [congruence|lia|exact Hp].
Qed.
Lemma states_ok f R m : (forall e, In e m -> forall r, f (snd e) = Ok r <-> R (snd e) r) -> forall r, resolve_states F f m = Ok r <-> named R m r.
Proof.
  intros H. unfold resolve_states, named. apply mapo_ok. intros [name s] He [name' r]. specialize (H _ He). cbn [fst snd] in *. rewrite obind_ok. split.
  - intros (x & E & X). injection X as <- <-. split; [reflexivity|now apply H].
  - intros (<- & X). exists r. split; [now apply H|reflexivity].
Qed.
Lemma branch_ok f R b : (forall e, In e (snd b) -> forall r, f (snd e) = Ok r <-> R (snd e) r) ->
  forall r, resolve_branch F env f b = Ok r <-> parts_text env (fst b) (fst r) /\ named R (snd b) (snd r).
Proof.
  intros H [x y]. destruct b as [start states]. cbn [fst snd] in *. pose proof (states_ok f R states H) as K. unfold resolve_branch. split.
  - intros X. apply obind_ok in X. destruct X as (a & Ea & X). apply obind_ok in X. destruct X as (c & Ec & X). injection X as <- <-. rewrite <- str_ok, <- K. auto.
  - rewrite <- str_ok, <- K. intros (-> & ->). reflexivity.
Qed.
Lemma state_ok s : readable F s -> forall r, resolve_state F parse_f64 env s = Ok r <-> state_is F parse_f64 env s r.
Proof.
  induction 1 as [s HV HB IH]. unfold state_values in HV. rewrite !Forall_app in HV. destruct HV as (V1 & V2 & V3 & V4 & V5 & V6).
  pose proof (fun r => payload_ok (ss_payload F s) r V1) as Kpt.
  pose proof (opto_ok (node_to_bool F parse_f64 env) (bool_is F parse_f64 env) _ (fun n e z => bool_ok n z (opt_in _ _ V2 n e))) as Ken.
  pose proof (opto_ok (resolve_node F parse_f64 env 0) (value_is F parse_f64 env 20) _ (fun n e z => node_at_ok 0 n z ltac:(lia) (opt_in _ _ V3 n e))) as Kre.
  pose proof (opto_ok (node_to_int F parse_f64 env) (int_is F parse_f64 env) _ (fun n e z => int_ok n z (opt_in _ _ V4 n e))) as Kti.
  pose proof (listed_ok (resolve_rule F parse_f64 env 0) (rule_is F parse_f64 env) (ss_decisions F s) (fun u Hu r => rule_ok u r (all_flat _ _ _ V5 u Hu))) as Kds.
  pose proof (listed_ok (resolve_retry F parse_f64 env) (retry_is F parse_f64 env) (ss_retry F s) (fun u Hu r => retry_ok u r (all_flat _ _ _ V6 u Hu))) as Krt.
  pose proof (listed_ok (resolve_catch env) (catch_is env) (ss_catch F s) (fun c _ r => catch_ok c r)) as Kca.
  pose proof (opto_ok (resolve_wait env) (wait_is env) (ss_wait F s) (fun c _ r => wait_ok c r)) as Kwa.
  pose proof (opto_ok (resolve_failure env) (failure_is env) (ss_failure F s) (fun c _ r => failure_ok c r)) as Kfa.
  pose proof (listed_ok (resolve_branch F env (resolve_state F parse_f64 env)) (fun b rb => parts_text env (fst b) (fst rb) /\ named (state_is F parse_f64 env) (snd b) (snd rb))
    (ss_branches F s) (fun b Hb => branch_ok _ _ b (fun e He => IH b e Hb He))) as Kbr.
  clear V1 V2 V3 V4 V5 V6 HB IH. destruct s as [ty de ip rp op pt nx en ds re ti wa fa br rt ca].
  cbn [WfYamlModel.ss_type WfYamlModel.ss_description WfYamlModel.ss_input WfYamlModel.ss_result_path WfYamlModel.ss_output WfYamlModel.ss_payload WfYamlModel.ss_next WfYamlModel.ss_end
       WfYamlModel.ss_decisions WfYamlModel.ss_result WfYamlModel.ss_timeout WfYamlModel.ss_wait WfYamlModel.ss_failure WfYamlModel.ss_branches WfYamlModel.ss_retry WfYamlModel.ss_catch] in *.
  intros r. split.
  - intros X. cbn [resolve_state] in X. repeat (apply obind_ok in X; let a := fresh "a" in let E := fresh "E" in destruct X as (a & E & X)). injection X as <-.
    constructor; cbn; [now apply type_ok|now apply opt_str_ok..|now apply Kpt|now apply opt_str_ok|now apply Ken|now apply Kds|now apply Kre|now apply Kti|now apply Kwa|now apply Kfa|now apply Kbr|now apply Krt|now apply Kca].
  - destruct r as [ty' de' ip' rp' op' pt' nx' en' ds' re' ti' wa' fa' br' rt' ca']. intros X. destruct X as [X1 X2 X3 X4 X5 X6 X7 X8 X9 X10 X11 X12 X13 X14 X15 X16].
    cbn in X1, X2, X3, X4, X5, X6, X7, X8, X9, X10, X11, X12, X13, X14, X15, X16.
    apply type_ok in X1. apply opt_str_ok in X2, X3, X4, X5, X7. apply Kpt in X6. apply Ken in X8. apply Kds in X9. apply Kre in X10. apply Kti in X11. apply Kwa in X12.
    apply Kfa in X13. apply Kbr in X14. apply Krt in X15. apply Kca in X16. cbn [resolve_state].
    rewrite X1, X2, X3, X4, X5, X6, X7, X8, X9, X10, X11, X12, X13. cbn [obind]. rewrite X14, X15, X16. reflexivity.
Qed.
Lemma workflow_ok w r : readable_workflow F w -> (resolve_workflow F parse_f64 env w = Ok r <-> workflow_is F parse_f64 env w r).
Proof. intros H. apply branch_ok. intros e He. apply state_ok. now apply H. Qed.

(** Resolving does not panic. *)
Lemma cond_safe c : Forall (proper F) (condition_values F c) -> resolve_condition F parse_f64 env 2 c <> Panic.
Proof.
  intros H. unfold condition_values in H. rewrite Forall_forall in H. unfold resolve_condition. apply bind_safe; [|intros a; apply bind_safe; [apply str_safe|discriminate]].
  apply mapo_safe. intros n Hn. apply node_at_safe; [cbn; lia|auto].
Qed.
Lemma rule_safe u : Forall (proper F) (rule_values F u) -> resolve_rule F parse_f64 env 0 u <> Panic.
Proof.
  intros H. unfold rule_values in H. pose proof (all_flat _ _ _ H) as H'. unfold resolve_rule. change (Nat.ltb max_resolve_depth 0) with false. cbv iota.
  unfold resolve_opt_condition, resolve_opt_conditions. change (0 + 1 + 1) with 2.
  apply bind_safe; [apply opto_safe; intros c Hc; apply cond_safe, H'; rewrite !in_app_iff, Hc; cbn; tauto|intros ?].
  apply bind_safe; [apply opto_safe; intros l Hl; apply mapo_safe; intros c Hc; apply cond_safe, H'; rewrite !in_app_iff, Hl; cbn; tauto|intros ?].
  apply bind_safe; [apply opto_safe; intros l Hl; apply mapo_safe; intros c Hc; apply cond_safe, H'; rewrite !in_app_iff, Hl; cbn; tauto|intros ?].
  apply bind_safe; [apply opto_safe; intros c Hc; apply cond_safe, H'; rewrite !in_app_iff, Hc; cbn; tauto|intros ?].
  apply bind_safe; [apply str_safe|discriminate].
Qed.
Lemma int_safe n : proper F n -> node_to_int F parse_f64 env n <> Panic.
Proof. intros H. apply bind_safe; [now apply scalar_node_safe|]. intros []; discriminate. Qed.
Lemma bool_safe n : proper F n -> node_to_bool F parse_f64 env n <> Panic.
Proof. intros H. apply bind_safe; [now apply scalar_node_safe|]. intros []; discriminate. Qed.
Lemma float_safe n : proper F n -> node_to_float F parse_f64 env n <> Panic.
Proof. intros H. apply bind_safe; [now apply scalar_node_safe|]. intros []; discriminate. Qed.
Lemma retry_safe y : Forall (proper F) (retry_values F y) -> resolve_retry F parse_f64 env y <> Panic.
Proof.
  intros H. unfold retry_values in H. rewrite !Forall_app in H. destruct H as (H1 & H2 & H3 & H4 & H5). unfold resolve_retry.
  apply bind_safe; [apply mapo_safe; intros; apply str_safe|intros ?].
  apply bind_safe; [apply opto_safe; intros n Hn; apply int_safe, (opt_in _ _ H1 n Hn)|intros ?].
  apply bind_safe; [apply opto_safe; intros n Hn; apply int_safe, (opt_in _ _ H2 n Hn)|intros ?].
  apply bind_safe; [apply opto_safe; intros n Hn; apply int_safe, (opt_in _ _ H3 n Hn)|intros ?].
  apply bind_safe; [apply opto_safe; intros n Hn; apply bool_safe, (opt_in _ _ H4 n Hn)|intros ?].
  apply bind_safe; [apply opto_safe; intros n Hn; apply float_safe, (opt_in _ _ H5 n Hn)|discriminate].
Qed.
Lemma opt_str_safe o : opto (resolve_to_string env) o <> Panic.
Proof. apply opto_safe. intros. apply str_safe. Qed.
Lemma branch_safe f b : (forall e, In e (snd b) -> f (snd e) <> Panic) -> resolve_branch F env f b <> Panic.
Proof.
  destruct b as [start states]. cbn [snd]. intros H. apply bind_safe; [apply str_safe|intros a]. apply bind_safe; [|discriminate].
  apply mapo_safe. intros [name s] He. specialize (H _ He). cbn [snd] in H. apply bind_safe; [exact H|discriminate].
Qed.
Lemma state_safe s : readable F s -> resolve_state F parse_f64 env s <> Panic.
Proof.
  induction 1 as [s HV HB IH]. unfold state_values in HV. rewrite !Forall_app in HV. destruct HV as (V1 & V2 & V3 & V4 & V5 & V6).
  destruct s as [ty de ip rp op pt nx en ds re ti wa fa br rt ca].
  cbn [WfYamlModel.ss_type WfYamlModel.ss_description WfYamlModel.ss_input WfYamlModel.ss_result_path WfYamlModel.ss_output WfYamlModel.ss_payload WfYamlModel.ss_next WfYamlModel.ss_end
       WfYamlModel.ss_decisions WfYamlModel.ss_result WfYamlModel.ss_timeout WfYamlModel.ss_wait WfYamlModel.ss_failure WfYamlModel.ss_branches WfYamlModel.ss_retry WfYamlModel.ss_catch] in *.
  cbn [resolve_state].
  apply bind_safe; [apply bind_safe; [apply str_safe|discriminate]|intros ?].
  do 3 (apply bind_safe; [apply opt_str_safe|intros ?]).
  apply bind_safe; [unfold resolve_payload; apply bind_safe; [|discriminate]; apply opto_safe; intros m ->; apply node_at_safe; [lia|]|intros ?].
  { intros d Ho. inversion Ho as [| |d' x y key m' Hy Hoy]; subst. rewrite Forall_forall in V1. refine (V1 y _ d' Hoy). apply in_map_iff. exists (key, y). auto. }
  apply bind_safe; [apply opt_str_safe|intros ?].
  apply bind_safe; [apply opto_safe; intros n Hn; apply bool_safe, (opt_in _ _ V2 n Hn)|intros ?].
  apply bind_safe; [apply opto_safe; intros l Hl; apply mapo_safe; intros u Hu; apply rule_safe, (all_flat _ _ _ V5 u); now rewrite Hl|intros ?].
  apply bind_safe; [apply opt_str_safe|intros ?].
  apply bind_safe; [apply opto_safe; intros n Hn; apply node_at_safe; [lia|exact (opt_in _ _ V3 n Hn)]|intros ?].
  apply bind_safe; [apply opto_safe; intros n Hn; apply int_safe, (opt_in _ _ V4 n Hn)|intros ?].
  apply bind_safe; [apply opto_safe; intros n Hn; do 2 (apply bind_safe; [apply opt_str_safe|intros ?]); discriminate|intros ?].
  apply bind_safe; [apply opto_safe; intros n Hn; do 2 (apply bind_safe; [apply opt_str_safe|intros ?]); discriminate|intros ?].
  apply bind_safe; [apply opto_safe; intros l Hl; apply mapo_safe; intros b Hb; apply branch_safe; intros e He; apply (IH b e); [now rewrite Hl|exact He]|intros ?].
  apply bind_safe; [apply opto_safe; intros l Hl; apply mapo_safe; intros u Hu; apply retry_safe, (all_flat _ _ _ V6 u); now rewrite Hl|intros ?].
  apply bind_safe; [apply opto_safe; intros l Hl; apply mapo_safe; intros c Hc|discriminate].
  apply bind_safe; [apply mapo_safe; intros; apply str_safe|intros ?]. apply bind_safe; [apply str_safe|intros ?]. apply bind_safe; [apply opt_str_safe|discriminate].
Qed.
Lemma workflow_safe w : readable_workflow F w -> resolve_workflow F parse_f64 env w <> Panic.
Proof. intros H. apply branch_safe. intros e He. apply state_safe. now apply H. Qed.
End Params.
