From Verif Require Import Base Chars EnvModel EnvSpec.
From Verif Require ResolveModel ResolveSpec ResolveProofs.
Local Open Scope list_scope.

Lemma parse_i32_iff t z : parse_i32 t = Some z <-> int32_text t z.
Proof.
  unfold parse_i32, int32_text. rewrite <- ResolveProofs.parse_i64_iff. destruct (ResolveModel.parse_i64 t) as [y|]; [|split; [discriminate|intros [[=] _]]].
  destruct (Z.leb_spec (- 2 ^ 31) y), (Z.ltb_spec y (2 ^ 31)); cbn; split; try discriminate; try (intros [= ->]; split; [reflexivity|lia]); intros [[= ->] ?]; try reflexivity; exfalso; lia.
Qed.
Lemma parse_bool_iff t b : ResolveModel.parse_bool t = Some b <-> bool_text t b.
Proof.
  unfold ResolveModel.parse_bool, bool_text. destruct (text_eqb t (chars "true")) eqn:E.
  - apply text_eqb_eq in E. subst. destruct b; split; try reflexivity; discriminate.
  - destruct (text_eqb t (chars "false")) eqn:E'.
    + apply text_eqb_eq in E'. subst. destruct b; split; try reflexivity; discriminate.
    + split; [discriminate|]. intros ->. destruct b; discriminate.
Qed.
Lemma parse_mode_iff t m : parse_mode t = Some m <-> t = chars (mode_name m).
Proof.
  unfold parse_mode. destruct (text_eqb t (chars "ffi")) eqn:E.
  - apply text_eqb_eq in E. subst. destruct m; split; try reflexivity; discriminate.
  - destruct (text_eqb t (chars "http")) eqn:E'.
    + apply text_eqb_eq in E'. subst. destruct m; split; try reflexivity; discriminate.
    + split; [discriminate|]. intros ->. destruct m; discriminate.
Qed.
Lemma platform_iff t p : platform_of t = p <-> platform_text t p.
Proof.
  assert (N : forall a, text_eqb t a = false -> t <> a) by (intros a E F; apply text_eqb_eq in F; congruence).
  unfold platform_of. destruct (text_eqb t (chars "aws")) eqn:E1; [|destruct (text_eqb t (chars "azure")) eqn:E2; [|destruct (text_eqb t (chars "gcp")) eqn:E3; [|destruct (text_eqb t (chars "local")) eqn:E4]]].
  1: apply text_eqb_eq in E1. 2: apply text_eqb_eq in E2. 3: apply text_eqb_eq in E3. 4: apply text_eqb_eq in E4.
  1-4: subst t; destruct p; unfold platform_text; cbn; (split; [intros H; try discriminate H; try reflexivity|intros H; try discriminate H; try reflexivity]).
  - now elim (H Aws "aws"%string).
  - now elim (H Azure "azure"%string).
  - now elim (H Gcp "gcp"%string).
  - now elim (H Local "local"%string).
  - apply N in E1, E2, E3, E4. split.
    + intros <-. cbn. intros [] n [= <-]; assumption.
    + destruct p; cbn; try contradiction. reflexivity.
Qed.
Lemma word_iff t s : Forall (fun c => ~ (65 <= c <= 90)%N) (chars s) -> (eq_ignore_case t (chars s) = true <-> word t s).
Proof.
  intros F. unfold eq_ignore_case, word. rewrite text_eqb_eq. revert t. induction F as [|c l Hc F IH]; intros t.
  - destruct t; split; intros H; try discriminate; try constructor; inversion H.
  - assert (L : lower c = c). { unfold lower. destruct (N.leb_spec 65 c), (N.leb_spec c 90); cbn; try reflexivity. lia. }
    destruct t as [|a t]; cbn [map]; [split; [discriminate|intros H; inversion H]|]. rewrite L. split.
    + intros [= E1 E2]. constructor; [|now apply IH]. unfold lower in E1. unfold same_letter. destruct (N.leb_spec 65 a), (N.leb_spec a 90); cbn in E1; auto.
    + intros H. inversion H; subst. f_equal; [|now apply IH]. unfold lower. destruct H3 as [-> |[R ->]].
      * destruct (N.leb_spec 65 c), (N.leb_spec c 90); cbn; try reflexivity. lia.
      * destruct (N.leb_spec 65 a), (N.leb_spec a 90); cbn; lia.
Qed.
Lemma name_small l : Forall (fun c => ~ (65 <= c <= 90)%N) (chars (level_name l)).
Proof. destruct l; cbn; repeat constructor; unfold chr; cbn; lia. Qed.
Lemma number_iff z l : level_of_number z = Some l <-> z = level_number l.
Proof.
  split.
  - unfold level_of_number. destruct z as [|p|p]; try discriminate. do 4 (try (destruct p as [p|p|]; try discriminate)); intros [= <-]; reflexivity.
  - intros ->. now destruct l.
Qed.
Lemma word_no_number t l : word t (level_name l) -> ResolveModel.parse_i64 t = None.
Proof.
  unfold word. intros W. assert (D : exists c s, chars (level_name l) = c :: s /\ (97 <= c)%N) by (destruct l; cbn; eexists _, _; (split; [reflexivity|]); unfold chr; cbn; lia).
  destruct D as (c & s & E & D). rewrite E in W. inversion W as [|a b t' s' Hab]; subst.
  assert (A : (65 <= a)%N) by (destruct Hab as [-> |[? ->]]; lia). unfold ResolveModel.parse_i64.
  destruct (N.eqb_spec a 43) as [-> |_]; [lia|]. destruct (N.eqb_spec a 45) as [-> |_]; [lia|]. cbn. replace (is_digit a) with false; [reflexivity|].
  unfold is_digit. destruct (N.leb_spec 48 a), (N.leb_spec a 57); try reflexivity; lia.
Qed.
Lemma minus_no_level t l : ResolveSpec.int_text (45%N :: t) (level_number l) -> False.
Proof.
  assert (G : forall ds z, ResolveSpec.digits_mean ds z -> (0 <= z)%Z /\ Forall (fun c => (48 <= c)%N) ds).
  { induction 1 as [d|ds v d D [H F]]; (split; [lia|]); [|apply Forall_app; split; [exact F|]]; constructor; auto; lia. }
  intros [_ [H|[(ds & E & H)|(ds & E & H)]]].
  - apply G in H. destruct H as [_ F]. inversion F. lia.
  - discriminate E.
  - apply G in H. destruct H as [H _]. destruct l; cbn in H; lia.
Qed.
Lemma parse_level_iff t l : parse_level t = Some l <-> level_text t l.
Proof.
  unfold parse_level, level_text.
  set (num := match t with [] => None | c :: _ => _ end).
  assert (N : num = Some l <-> ResolveSpec.int_text t (level_number l)).
  { subst num. destruct t as [|c t].
    - split; [discriminate|]. intros [_ [H|[(ds & E & _)|(ds & E & _)]]]; try discriminate E. inversion H. destruct t; discriminate.
    - destruct (N.eqb_spec c 45) as [-> |_].
      + split; [discriminate|]. intros H. now apply minus_no_level in H.
      + rewrite <- ResolveProofs.parse_i64_iff. destruct (ResolveModel.parse_i64 (c :: t)) as [z|]; [rewrite number_iff; intuition congruence|split; discriminate]. }
  assert (X : forall k, word t (level_name k) -> num = None).
  { intros k W. subst num. destruct t as [|c t]; [reflexivity|]. rewrite (word_no_number _ _ W). now destruct (c =? 45)%N. }
  assert (I : forall k, eq_ignore_case t (chars (level_name k)) = true <-> word t (level_name k)) by (intros k; apply word_iff, name_small).
  assert (U : forall k k', word t (level_name k) -> word t (level_name k') -> k = k').
  { intros k k' A B. apply I in A, B. unfold eq_ignore_case in A, B. apply text_eqb_eq in A, B. rewrite A in B. destruct k, k'; try reflexivity; discriminate B. }
  rewrite <- N. clearbody num. destruct num as [k|].
  - split; [intros [= ->]; now right|]. intros [H|H]; [now apply X in H|exact H].
  - change "error"%string with (level_name LvError). change "warn"%string with (level_name LvWarn). change "info"%string with (level_name LvInfo). change "debug"%string with (level_name LvDebug). change "trace"%string with (level_name LvTrace).
    split.
    + intros H. left. repeat match type of H with (if eq_ignore_case t (chars (level_name ?k)) then _ else _) = _ => destruct (eq_ignore_case t (chars (level_name k))) eqn:?E end; try discriminate H; injection H as <-; now apply I.
    + intros [H|H]; [|discriminate]. repeat match goal with |- (if eq_ignore_case t (chars (level_name ?k)) then _ else _) = _ => destruct (eq_ignore_case t (chars (level_name k))) eqn:?E end; try (f_equal; eapply U; [apply I; eassumption|exact H]).
      apply I in H. destruct l; congruence.
Qed.

Lemma expect_ok {A} (o : option A) a : expect (E := Empty_set) o = Ok a <-> o = Some a.
Proof. destruct o; split; intros [=]; subst; reflexivity. Qed.
Lemma optional_ok {A} parse (means : text -> A -> Prop) o a : (forall t x, parse t = Some x <-> means t x) ->
  optional (E := Empty_set) parse o = Ok a <-> match a with Some x => exists t, o = Some t /\ means t x | None => o = None end.
Proof.
  intros P. unfold optional. destruct o as [t|]; cbn.
  - destruct (parse t) as [x|] eqn:E; cbn.
    + split; [intros [= <-]; exists t; split; [reflexivity|now apply P]|]. destruct a as [y|]; [|discriminate]. intros (t' & [= <-] & M). apply P in M. congruence.
    + split; [discriminate|]. destruct a as [y|]; [|discriminate]. intros (t' & [= <-] & M). apply P in M. congruence.
  - split; [intros [= <-]; reflexivity|]. destruct a as [y|]; [intros (t' & [=] & _)|reflexivity].
Qed.
Lemma bind_ok {A B} (x : outcome Empty_set A) (f : A -> outcome Empty_set B) b : obind x f = Ok b <-> exists a, x = Ok a /\ f a = Ok b.
Proof. destruct x as [a| |]; cbn; split; try discriminate; [eauto|intros (a' & [= <-] & H); exact H|intros (a' & [=] & _)..]. Qed.
Lemma defaulted_ok {A} parse (means : text -> A -> Prop) env n d dt a : (forall t x, parse t = Some x <-> means t x) -> parse dt = Some d ->
  expect (E := Empty_set) (parse (or_default (env (chars n)) dt)) = Ok a <-> defaulted env n means d a.
Proof.
  intros P D. rewrite expect_ok. unfold defaulted, needed. destruct (env (chars n)) as [t|]; cbn.
  - rewrite P. split; [intros H; left; eauto|]. intros [(t' & [= <-] & H)|[[=] _]]. exact H.
  - rewrite D. split; [intros [= <-]; auto|]. intros [(t' & [=] & _)|[_ ->]]. reflexivity.
Qed.
Lemma needed_ok {A} parse (means : text -> A -> Prop) env n a : (forall t x, parse t = Some x <-> means t x) ->
  (exists t, expect (E := Empty_set) (env (chars n)) = Ok t /\ expect (E := Empty_set) (parse t) = Ok a) <-> needed env n means a.
Proof. intros P. unfold needed. split; intros (t & H1 & H2); exists t; rewrite ?expect_ok in *; rewrite ?P in *; auto; split; auto; now apply P. Qed.
Lemma expect_bind {A B} (o : option A) (f : A -> outcome Empty_set B) b : obind (expect o) f = Ok b <-> exists a, o = Some a /\ f a = Ok b.
Proof. rewrite bind_ok. setoid_rewrite expect_ok. reflexivity. Qed.
Lemma from_env_iff env c : from_env env = Ok c <-> settings env c.
Proof.
  unfold from_env. repeat setoid_rewrite bind_ok. split.
  - intros (bp & E1 & mt & E2 & m & E3 & sv & E4 & pt & E5 & p & E6 & lb & E7 & lp & E8 & hc & E9 & lv & E10 & pl & E11 & te & E12 & [= <-]).
    apply expect_ok in E1; apply expect_ok in E2; apply expect_ok in E3; apply expect_ok in E4; apply expect_ok in E5; apply expect_ok in E6; apply expect_ok in E11.
    apply parse_mode_iff in E3. apply parse_i32_iff in E6.
    apply (optional_ok _ _ _ _ parse_bool_iff) in E7, E9, E12.
    apply (defaulted_ok _ _ _ _ 8592%Z default_local_port _ parse_i32_iff eq_refl) in E8.
    apply (defaulted_ok _ _ _ _ LvInfo (chars "info") _ parse_level_iff eq_refl) in E10.
    constructor; cbn [cf_blueprint cf_mode cf_service cf_port cf_loopback cf_local_port cf_health cf_collector cf_level cf_platform cf_test cf_api cf_consumer cf_schedule].
    + exists bp. auto.
    + exists mt. auto.
    + exists sv. auto.
    + exists pt. auto.
    + destruct lb; exact E7.
    + exact E8.
    + destruct hc; exact E9.
    + unfold defaulted, needed. destruct (env (chars "CELERITY_TRACE_OTLP_COLLECTOR_ENDPOINT")) as [t|]; cbn; [left; eauto|right; auto].
    + exact E10.
    + exists pl. split; [exact E11|]. now apply platform_iff.
    + destruct te as [b|]; [left; exact E12|right; auto].
    + unfold may, needed. destruct (env (chars "CELERITY_API_RESOURCE")); eauto.
    + unfold may, needed. destruct (env (chars "CELERITY_CONSUMER_APP")); eauto.
    + unfold may, needed. destruct (env (chars "CELERITY_SCHEDULE_APP")); eauto.
  - destruct c as [c1 c2 c3 c4 c5 c6 c7 c8 c9 c10 c11 c12 c13 c14].
    intros [B1 M2 S4 P5 E7 E8 E9 S10 E10 P11 E12 A1 A2 A3]. cbn [cf_blueprint cf_mode cf_service cf_port cf_loopback cf_local_port cf_health cf_collector cf_level cf_platform cf_test cf_api cf_consumer cf_schedule] in *.
    destruct B1 as (bp & E1 & <-), M2 as (mt & E2 & E3), S4 as (sv & E4 & <-), P5 as (pt & E5 & E6), P11 as (pl & E11 & P).
    exists bp. split; [now apply expect_ok|]. exists mt. split; [now apply expect_ok|]. exists c2. split; [now apply expect_ok, parse_mode_iff|].
    exists sv. split; [now apply expect_ok|]. exists pt. split; [now apply expect_ok|]. exists c4. split; [now apply expect_ok, parse_i32_iff|].
    exists c5. split; [apply (optional_ok _ _ _ _ parse_bool_iff); destruct c5; exact E7|]. exists c6. split; [apply (defaulted_ok _ _ _ _ 8592%Z default_local_port _ parse_i32_iff eq_refl), E8|].
    exists c7. split; [apply (optional_ok _ _ _ _ parse_bool_iff); destruct c7; exact E9|]. exists c9. split; [apply (defaulted_ok _ _ _ _ LvInfo (chars "info") _ parse_level_iff eq_refl), E10|].
    exists pl. split; [now apply expect_ok|]. exists (match env (chars "CELERITY_TEST_MODE") with Some _ => Some c11 | None => None end).
    assert (T : match env (chars "CELERITY_TEST_MODE") with Some _ => True | None => c11 = false end).
    { destruct E12 as [(t & -> & _)|[-> ->]]; auto. }
    split.
    + apply (optional_ok _ _ _ _ parse_bool_iff). destruct E12 as [(t & E & M)|[E _]]; rewrite E; [exists t; auto|reflexivity].
    + apply platform_iff in P. subst c10.
      assert (M : forall n o, may env n eq o -> env (chars n) = o). { intros n [a|] H; [destruct H as (t & H & <-); exact H|exact H]. }
      rewrite (M _ _ A1), (M _ _ A2), (M _ _ A3). f_equal. f_equal.
      * destruct S10 as [(t & -> & <-)|[-> ->]]; reflexivity.
      * destruct (env (chars "CELERITY_TEST_MODE")); [reflexivity|now symmetry].
Qed.
