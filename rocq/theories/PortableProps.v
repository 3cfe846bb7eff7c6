(** C138 and C139: what both readers accept means the same. *)
From Verif Require Import Base Chars SubstModel SubstProps ResolveModel ResolveSpec BlueprintModel WfYamlModel WfYamlSpec WfYamlProofs WfYamlProps
  SpecYamlModel SpecYamlSpec SpecYamlProps SpecJsonModel SpecJsonSpec SpecJsonProps
  WfResolveModel WfResolveSpec SpecResolveModel SpecResolveSpec SpecResolveProps LoadModel LoadSpec LoadProps LoadJsonModel LoadJsonSpec LoadJsonProps
  PortableSpec PortableProofs PortableDocSpec.
Local Open Scope list_scope.

Section Params.
Variable F : Type.
Variable parse_f64 : text -> option F.
Variable k : classes.
Hypothesis Hk : sane k.
Variable json_text : text -> option text.
Variable of_int : Z -> F.
Variable env : text -> option text.
Notation portable := (portable json_text).
Notation y_spec := (y_spec F parse_f64 k).
Notation j_spec := (j_spec F parse_f64 k json_text).
Notation resolve_spec := (resolve_spec F parse_f64 env).

(** * C138: the spec of a resource, whatever its type *)
Theorem C138_spec_partial : forall ty m s s' r r', portable (YMap m) -> (ty = TTopic \/ ty = TQueue -> In (chars "fifo") (keys_of m)) ->
  j_spec ty (YMap m) = Ok s -> resolve_spec s = Ok r -> y_spec ty m = Ok s' -> resolve_spec s' = Ok r' -> r = r'.
Proof.
  intros ty m s s' r r' P Hf Hj Hr Hy Hr'.
  assert (Rs : readable_spec F s) by (eapply (proj1 (C123_readable F parse_f64 k Hk json_text of_int (YMap m))); exact Hj).
  assert (Rs' : readable_spec F s') by (eapply (proj1 (C116_readable F parse_f64 k Hk m (proj1 P))); exact Hy).
  apply (proj1 (C116_exact F parse_f64 env)) in Hr, Hr'; [|assumption..]. apply (C123_exact F parse_f64 k Hk json_text) in Hj. apply (C112_spec_exact F parse_f64 k Hk) in Hy; [|exact (proj1 P)].
  exact (spec_agree F parse_f64 k json_text env ty m s s' r r' P Hf Hj Hy Hr Hr').
Qed.
Theorem C138_metadata_partial : forall m x x' r r', portable (YMap m) ->
  j_metadata F parse_f64 k json_text (YMap m) = Ok x -> resolve_metadata F parse_f64 env x = Ok r ->
  y_metadata F parse_f64 k m = Ok x' -> resolve_metadata F parse_f64 env x' = Ok r' -> r = r'.
Proof.
  intros m x x' r r' P Hj Hr Hy Hr'.
  assert (Rx : readable_metadata F x) by (eapply (proj1 (proj2 (C123_readable F parse_f64 k Hk json_text of_int (YMap m)))); exact Hj).
  assert (Rx' : readable_metadata F x') by (eapply (proj1 (proj2 (C116_readable F parse_f64 k Hk m (proj1 P)))); exact Hy).
  apply (proj1 (proj2 (C116_exact F parse_f64 env))) in Hr, Hr'; [|assumption..].
  apply (proj1 (C123_rest_exact F parse_f64 k Hk json_text of_int (YMap m))) in Hj. apply (proj1 (C112_rest_exact F parse_f64 k m (proj1 P))) in Hy.
  eapply (metadata_agree F parse_f64 k json_text env (YMap m) P); [exact Hj|exists m; split; [reflexivity|exact Hy]|exact Hr|exact Hr'].
Qed.

(** * C139: documents *)
Lemma scalar_same v : portable v -> agree (is_scalar_value F parse_f64 of_int) (is_scalar F parse_f64) eq v.
Proof.
  intros (_ & P & _) a b c c' Ja Yb <- <-. destruct Ja as [z Hz|z Hz|t f Hf|b'|t]; inversion Yb; subst; try reflexivity; [|congruence].
  elim Hz. apply P. constructor.
Qed.
Lemma both_eq {A} (R : A -> A -> Prop) (o : option A) : (forall x, R x x) -> both R o o. Proof. destruct o; constructor; auto. Qed.
Lemma all_eq {A} (l : list A) : Forall2 eq l l. Proof. induction l; constructor; auto. Qed.
Lemma string_same v : agree is_string is_string eq v. Proof. intros a b c c' Ha Hb <- <-. unfold is_string in *. congruence. Qed.
Lemma plain_bool_same v : agree is_plain_bool is_plain_bool eq v. Proof. intros a b c c' Ha Hb <- <-. unfold is_plain_bool in *. congruence. Qed.
Lemma null_scalar x : ~ is_scalar F parse_f64 YNull x. Proof. intros H. inversion H. Qed.
Lemma var_same v : portable v -> agree (json_var F parse_f64 of_int) (is_mapping (is_var F parse_f64)) eq v.
Proof.
  intros P a b c c' (_ & J1 & J2 & J3 & J4 & J5) (m & -> & Y1 & Y2 & Y3 & Y5 & Y4 & _) <- <-. pose proof (one_each_keys _ (proj1 P)) as Nd.
  pose proof (fun key w => portable_map json_text _ (Some key) w P) as Q. destruct a as [a1 a2 a3 a4 a5], b as [b1 b2 b3 b4 b5]. cbn [va_type va_allowed va_default va_description va_secret] in *.
  assert (E1 : a1 = b1) by exact (req_def Nd (fun w _ => string_same w) J1 Y1 eq_refl eq_refl).
  assert (E3 : a3 = b3) by exact (opt_opt Nd null_scalar (fun w Hw => scalar_same w (Q _ w Hw)) J3 Y3 (both_eq eq _ (@eq_refl _)) (both_eq eq _ (@eq_refl _))).
  assert (E4 : a5 = b5) by (refine (opt_opt Nd _ (fun w _ => plain_bool_same w) J4 Y4 (both_eq eq _ (@eq_refl _)) (both_eq eq _ (@eq_refl _))); intros x; discriminate).
  assert (E5 : a4 = b4) by (refine (opt_opt Nd _ (fun w _ => string_same w) J5 Y5 (both_eq eq _ (@eq_refl _)) (both_eq eq _ (@eq_refl _))); intros x; discriminate).
  assert (E2 : a2 = b2).
  { refine (opt_len Nd _ _ (fun w Hw => _) J2 Y2 (both_eq (Forall2 eq) _ all_eq) (both_eq (Forall2 eq) _ all_eq)).
    - intros (l & [=]).
    - intros w x Hw (l & -> & _). now exists l.
    - apply agree_seq. intros l u -> Hu. apply scalar_same. eapply portable_seq; [exact (Q _ _ Hw)|exact Hu]. }
  congruence.
Qed.
Lemma vars_same v : portable v -> (forall m name w, v = YMap m -> In (name, w) m -> not_array w) -> agree (is_object (json_var F parse_f64 of_int)) (is_mapping (are_vars F parse_f64)) (named eq) v.
Proof.
  intros P N. apply agree_named; [|exact (proj1 P)|exact N|].
  - eapply struct_structs. intros x y H. apply H.
  - intros m key w -> Hw. apply var_same. eapply portable_map; eassumption.
Qed.
Lemma selector_same v : portable v -> agree json_selector (is_mapping is_selector) eq v.
Proof.
  intros P a b c c' (_ & J) (m & -> & Y) <- <-. pose proof (one_each_keys _ (proj1 P)) as Nd. pose proof (fun key w => portable_map json_text _ (Some key) w P) as Q.
  refine (req_req Nd (fun w Hw => _) J Y eq_refl eq_refl). intros x y z z' (mm & all & -> & Ha & ->) (mm' & [= <-] & ->) <- <-.
  rewrite last_id by (rewrite <- (object_names is_string mm all Ha); apply one_each_keys; exact (proj1 (Q _ _ Hw))).
  symmetry. clear -Ha. induction Ha as [|[key v] [key' t] m r [E Hs] H IH]; [reflexivity|]. cbn in E, Hs. unfold is_string in Hs. subst. cbn. now f_equal.
Qed.
Lemma given_field {A} m key (R : yaml -> A -> Prop) o n : given m key R o -> (forall a, ~ R YNull a) -> field_opt n (YMap m) key R o.
Proof.
  intros (_ & [(v & a & Hv & Ha & ->)|(Hn & ->)]) N.
  - left. exists v, a. split; [left; eauto|]. split; [intros ->; elim (N _ Ha)|auto].
  - right. split; [|reflexivity]. intros w Hw. apply has_map in Hw. elim Hn. apply keys_in. eauto.
Qed.
Lemma types_once : NoDup (map fst json_type_names).
Proof. repeat constructor; cbn; intuition discriminate. Qed.
Lemma six_types t ty : In (t, ty) LoadSpec.type_names -> In (t, ty) json_type_names /\ ty <> TTopic /\ ty <> TQueue.
Proof. intros H. split; [apply in_or_app; now left|]. cbn in H. repeat (destruct H as [[= <- <-]|H]; [split; discriminate|]). destruct H. Qed.
Lemma ten_types t ty : In (t, ty) json_type_names -> In (t, ty) LoadSpec.type_names \/ In t json_only_types.
Proof. unfold json_type_names. intros H. apply in_app_or in H. destruct H as [H|H]; [now left|right]. cbn in H. repeat (destruct H as [[= <- <-]|H]; [cbn; tauto|]). destruct H. Qed.
Lemma resource_same m r s me sp r' : portable (YMap m) -> resource_declares F parse_f64 k json_text m r -> r_spec _ _ _ r = Some s ->
  metadata_stands F parse_f64 env (r_meta _ _ _ r) me -> spec_is F parse_f64 env s sp -> resource_loads F parse_f64 k env m r' ->
  {| rr_type := r_type _ _ _ r; rr_meta := me; rr_spec := sp; rr_desc := r_desc _ _ _ r; rr_sel := r_sel _ _ _ r |} = r'.
Proof.
  intros P (_ & (_ & J1) & (_ & J2) & J3 & J4 & (_ & J5) & _) Es Hme Hsp ((t & Ht & Hty) & Y2 & Y4 & Y3 & (w & Hw & m5 & -> & s' & Hs' & Hr')).
  pose proof (one_each_keys _ (proj1 P)) as Nd. pose proof (fun key w => portable_map json_text _ (Some key) w P) as Q. destruct r as [ty meta spec desc sel], r' as [ty' meta' spec' desc' sel'].
  cbn [r_type r_meta r_spec r_desc r_sel rr_type rr_meta rr_spec rr_desc rr_sel] in *. subst spec.
  assert (Ety : ty = ty').
  { destruct J1 as [(v & a & Hv & (u & -> & Hu) & [= <-])|(_ & [=])]. pose proof (keys_once _ _ _ _ Nd Hv Ht) as E. injection E as ->. eapply names_unique; [exact types_once|exact Hu|]. now apply six_types. }
  assert (Esp : sp = spec').
  { destruct J5 as [(v & a & Hv & Hj & [= <-])|(_ & [=])]. rewrite (keys_once _ _ _ _ Nd Hv Hw) in Hj. rewrite <- Ety in *. pose proof (proj2 (six_types _ _ Hty)) as [N1 N2].
    eapply (spec_agree F parse_f64 k json_text env); [exact (Q _ _ Hw)| |exact Hj|exact Hs'|exact Hsp|exact Hr']. intros [E|E]; contradiction. }
  assert (Eme : me = meta').
  { destruct J2 as [(pre & v' & post & a & E & _ & Ha & Eo)|(Hn & Eo)]; subst meta; destruct Hme as [(y & Ey & Hy)|(Ey & Hm)]; try discriminate Ey.
    - injection Ey as <-. assert (Hi : In (Some (chars "metadata"), v') m) by (rewrite E; apply in_elt). destruct Y2 as [(v & Hv & m' & -> & x & Hx & Hr)|(Ln & _)].
      + rewrite (keys_once _ _ _ _ Nd Hi Hv) in Ha. eapply (metadata_agree F parse_f64 k json_text env (YMap m')); [exact (Q _ _ Hv)|exact Ha|exists m'; split; [reflexivity|exact Hx]|exact Hy|exact Hr].
      + elim Ln. apply keys_in. eauto.
    - subst me. destruct Y2 as [(v & Hv & _)|(_ & ->)]; [|reflexivity]. elim Hn. apply keys_in. eauto. }
  assert (Ed : desc = desc').
  { refine (opt_opt (n := []) Nd _ (fun w _ => string_same w) (given_field _ _ _ _ _ J3 _) Y3 (both_eq eq _ (@eq_refl _)) (both_eq eq _ (@eq_refl _))); intros x; discriminate. }
  assert (El : sel = sel').
  { refine (opt_opt (n := []) Nd (null_mapping _) (fun w Hw => selector_same w (Q _ w Hw)) (given_field _ _ _ _ _ J4 _) Y4 (both_eq eq _ (@eq_refl _)) (both_eq eq _ (@eq_refl _))).
    intros x ([(mm & [=] & _)|(l & [=] & _)] & _). }
  congruence.
Qed.
Lemma declared_names rs ds : resources_declare F parse_f64 k json_text rs ds -> NoDup (keys_of rs) -> NoDup (map fst ds).
Proof. intros H N. eapply declare_distinct; eassumption. Qed.
Lemma resources_same rs ds l l' : portable (YMap rs) -> (forall name d t, In (Some name, YMap d) rs -> In (Some (chars "type"), YStr t) d -> ~ In t json_only_types) ->
  resources_declare F parse_f64 k json_text rs ds -> resources_stand F parse_f64 env ds l -> resources_load F parse_f64 k env (named_maps rs) l' -> l = l'.
Proof.
  intros P NT H. assert (Pd : forall name d, In (Some name, YMap d) rs -> portable (YMap d)) by (intros; eapply portable_map; eassumption). clear P. revert l l'.
  induction H as [|name rs ds H IH|name d rs ds Hi H IH|name d r rs ds Hd H IH]; intros l l' Hs Hl.
  - cbn in Hl. inversion Hs; inversion Hl; reflexivity.
  - cbn in Hl. apply IH; auto; intros; [eapply NT|eapply Pd]; try right; eassumption.
  - assert (Hl' : resources_load F parse_f64 k env (named_maps rs) l'); [|apply IH; auto; intros; [eapply NT|eapply Pd]; try right; eassumption].
    cbn in Hl. inversion Hl as [|n m t l1 rs1 Ht Hn Hr|n m r l1 rs1 Hr Hrest]; subst; [exact Hr|]. exfalso.
    destruct Hi as (_ & pre & t & post & E & Hn & _). destruct Hr as ((t' & Ht' & Hty) & _). assert (Hi : In (Some (chars "type"), YStr t) d) by (rewrite E; apply in_elt).
    pose proof (keys_once _ _ _ _ (one_each_keys _ (proj1 (Pd name d (or_introl eq_refl)))) Hi Ht') as X. injection X as ->. apply Hn. apply in_map_iff. eexists. split; [|exact (proj1 (six_types _ _ Hty))]. reflexivity.
  - pose proof (Pd name d (or_introl eq_refl)) as P. pose proof (one_each_keys _ (proj1 P)) as Nd. cbn in Hl. inversion Hl as [|n m t l1 rs1 Ht Hn Hr|n m r1 l1 rs1 Hr Hrest]; subst.
    + exfalso. destruct Hd as (_ & (_ & [(v & a & Hv & (u & -> & Hu) & _)|(_ & [=])]) & _). pose proof (keys_once _ _ _ _ Nd Hv Ht) as X. injection X as ->.
      destruct (ten_types _ _ Hu) as [Hu'|Hu']; [apply Hn; apply in_map_iff; eexists; split; [|exact Hu']; reflexivity|]. elim (NT name d t (or_introl eq_refl) Ht Hu').
    + inversion Hs as [|n r2 me l2 rs2 Hnone Hme Hst|n r2 s me sp l2 rs2 Hsome Hme Hsp Hst]; subst.
      * exfalso. destruct Hd as (_ & _ & _ & _ & _ & (_ & [(v & a & _ & _ & E)|(Hn & _)]) & _); [congruence|]. destruct Hr as (_ & _ & _ & _ & (w & Hw & _)). apply Hn. apply keys_in. eauto.
      * f_equal; [f_equal; eapply resource_same; eassumption|]. apply IH; auto; intros; [eapply NT|eapply Pd]; try right; eassumption.
Qed.
(** A document that both readers load is the same blueprint in both. *)
Theorem C139_document_partial : forall m b b', portable_document json_text m ->
  load_json F parse_f64 k json_text of_int env (YMap m) = Ok b -> load F parse_f64 k env [YMap m] = Ok b' -> b = b'.
Proof.
  intros m b b' (P & NT & NR & NM) Hj Hy. apply (C127_exact F parse_f64 k Hk) in Hj. apply (C120_exact F parse_f64 k env Hk) in Hy; [|exact (proj1 P)].
  pose proof (one_each_keys _ (proj1 P)) as Nd. pose proof (fun key w => portable_map json_text _ (Some key) w P) as Q.
  destruct Hj as (_ & _ & _ & J1 & (v2 & l2 & Hv2 & J2 & J2') & J3 & _ & (rs & ds & Hrs & Jd & Js) & _ & J5).
  destruct Hy as (_ & Y1 & Y2 & Y3 & (rs' & Hrs' & Yl) & _ & Y5).
  destruct b as [b1 b2 b3 b4 b5], b' as [c1 c2 c3 c4 c5]. cbn [rb_version rb_transform rb_vars rb_res rb_meta] in *. subst b1 c1.
  assert (E2 : b2 = c2).
  { subst b2. destruct J2 as [(t & -> & ->)|E]; [|elim (NT _ Hv2 _ E)]. destruct Y2 as [(v & a & Hv & _ & (t' & -> & ->) & ->)|(N & _)].
    - pose proof (keys_once _ _ _ _ Nd Hv Hv2) as X. now injection X as ->.
    - elim (N _ Hv2). now exists t. }
  assert (E3 : b3 = c3).
  { assert (B : forall o : option (list (text * var F)), both (named eq) o o). { intros o. apply both_eq. intros l. induction l; constructor; auto. }
    refine (opt_len Nd _ _ (fun w Hw => _) J3 Y3 (B _) (B _)).
    - intros (x & [=]).
    - intros w x Hw (mm & all & -> & _). now exists mm.
    - apply vars_same; [exact (Q _ _ Hw)|]. intros mm name u -> Hu. eapply names_objects; [exact P| |exact Hw|exact Hu]. clear. cbn. tauto. }
  assert (E4 : b4 = c4).
  { pose proof (keys_once _ _ _ _ Nd Hrs Hrs') as X. injection X as <-. pose proof (Q _ _ Hrs) as Pr.
    rewrite last_id in Js by (eapply declare_distinct; [apply one_each_keys; exact (proj1 Pr)|exact Jd]).
    eapply resources_same; [exact Pr| |exact Jd|exact Js|exact Yl]. intros name d t Hd Ht. eapply NR; eassumption. }
  assert (E5 : b5 = c5).
  { destruct J5 as [(w & a & Hw & _ & (x & (_ & Jx) & Jb) & ->)|(N & ->)].
    - apply has_map in Hw. destruct (NM w Hw) as (mm & u & -> & Hu). pose proof (Q _ _ Hw) as Pm. pose proof (one_each_keys _ (proj1 Pm)) as Ndm.
      destruct Jx as [(u' & a' & Hu' & _ & Ja & ->)|(N & ->)].
      + apply has_map in Hu'. rewrite (keys_once _ _ _ _ Ndm Hu' Hu) in Ja. inversion Jb as [|? r' Rr]; subst. destruct Y5 as [(mm2 & w2 & r2 & Hm2 & Hw2 & (y & Hy & Hr2) & ->)|(N & _)]; [|elim (N mm u Hw Hu)].
        pose proof (keys_once _ _ _ _ Nd Hm2 Hw) as X. injection X as ->. pose proof (keys_once _ _ _ _ Ndm Hw2 Hu) as X. injection X as ->. do 2 f_equal.
        eapply (shared_agree F parse_f64 k json_text env (YMap u)); [eapply portable_map; eassumption|exact Ja|exists u; split; [reflexivity|exact Hy]|exact Rr|exact Hr2].
      + specialize (N (YMap u)). discriminate N. apply has_map. exact Hu.
    - destruct Y5 as [(mm & u & r & Hm & Hu & _)|(_ & ->)]; [|reflexivity]. specialize (N (YMap mm)). discriminate N. apply has_map. exact Hm. }
  congruence.
Qed.
(** * Where the two part: documents that mean one thing in JSON and another in YAML *)
(** A topic or queue that does not say whether it is first-in-first-out: in YAML it says that it is not. *)
Theorem C138_fifo_refuted : forall ty m s s' r r', ty = TTopic \/ ty = TQueue -> one_each (YMap m) -> ~ In (chars "fifo") (keys_of m) ->
  j_spec ty (YMap m) = Ok s -> resolve_spec s = Ok r -> y_spec ty m = Ok s' -> resolve_spec s' = Ok r' -> r <> r'.
Proof.
  intros ty m s s' r r' T P Hf Hj Hr Hy Hr'.
  assert (Rs : readable_spec F s) by (eapply (proj1 (C123_readable F parse_f64 k Hk json_text of_int (YMap m))); exact Hj).
  assert (Rs' : readable_spec F s') by (eapply (proj1 (C116_readable F parse_f64 k Hk m P)); exact Hy).
  apply (proj1 (C116_exact F parse_f64 env)) in Hr, Hr'; [|assumption..]. apply (C123_exact F parse_f64 k Hk json_text) in Hj. apply (C112_spec_exact F parse_f64 k Hk) in Hy; [|exact P].
  assert (N : forall w, ~ In (Some (chars "fifo"), w) m) by (intros w Hw; apply Hf, keys_in; eauto).
  assert (L : forall nm w, has nm (YMap m) (chars "fifo") w -> False) by (intros nm w Hw; apply has_map in Hw; exact (N _ Hw)).
  destruct T as [-> | ->].
  - destruct Hj as (x & (_ & _ & J) & ->), Hy as (y & (_ & Y) & ->). inversion Hr as [ | | | | | | | |? rx (_ & Hx)|]. inversion Hr' as [ | | | | | | | |? ry (_ & Hy)|]. subst. intros [= ->].
    destruct J as [(w & a & Hw & _)|(_ & J)]; [exact (L _ _ Hw)|]. destruct Y as [(w & Hw & _)|(_ & Y)]; [exact (N _ Hw)|]. rewrite J in Hx. rewrite Y in Hy. inversion Hx; inversion Hy; congruence.
  - destruct Hj as (x & (_ & _ & J & _) & ->), Hy as (y & (_ & Y & _) & ->). inversion Hr as [ | | | | | | | | |? rx (_ & Hx & _)]. inversion Hr' as [ | | | | | | | | |? ry (_ & Hy & _)]. subst. intros [= ->].
    destruct J as [(w & a & Hw & _)|(_ & J)]; [exact (L _ _ Hw)|]. destruct Y as [(w & Hw & _)|(_ & Y)]; [exact (N _ Hw)|]. rewrite J in Hx. rewrite Y in Hy. inversion Hx; inversion Hy; congruence.
Qed.
(** A transform that is an array is lost in YAML; so is metadata without a shared handler configuration. *)
Theorem C139_transform_refuted : forall m b b' l, one_each (YMap m) ->
  load_json F parse_f64 k json_text of_int env (YMap m) = Ok b -> load F parse_f64 k env [YMap m] = Ok b' -> In (Some (chars "transform"), YSeq l) m ->
  (exists ts, rb_transform _ _ _ _ _ b = Some ts /\ l = map YStr ts) /\ rb_transform _ _ _ _ _ b' = None.
Proof.
  intros m b b' l P Hj Hy Hl. apply (C127_exact F parse_f64 k Hk) in Hj. apply (C120_exact F parse_f64 k env Hk) in Hy; [|exact P]. pose proof (one_each_keys _ P) as Nd. split.
  - destruct Hj as (_ & _ & _ & _ & (v & ts & Hv & J & E) & _). rewrite (keys_once _ _ _ _ Nd Hv Hl) in J. destruct J as [(t & [=] & _)|[= ->]]. eauto.
  - destruct Hy as (_ & _ & [(v & a & Hv & (t & Et) & _)|(_ & E)] & _); [|exact E]. subst v. pose proof (keys_once _ _ _ _ Nd Hv Hl) as X. discriminate X.
Qed.
Theorem C139_metadata_refuted : forall m b b' mm, one_each (YMap m) ->
  load_json F parse_f64 k json_text of_int env (YMap m) = Ok b -> load F parse_f64 k env [YMap m] = Ok b' ->
  In (Some (chars "metadata"), YMap mm) m -> ~ In (chars "sharedHandlerConfig") (keys_of mm) -> rb_meta _ _ _ _ _ b = Some None /\ rb_meta _ _ _ _ _ b' = None.
Proof.
  intros m b b' mm P Hj Hy Hl Hn. apply (C127_exact F parse_f64 k Hk) in Hj. apply (C120_exact F parse_f64 k env Hk) in Hy; [|exact P]. pose proof (one_each_keys _ P) as Nd.
  assert (N : forall w, ~ In (Some (chars "sharedHandlerConfig"), w) mm) by (intros w Hw; apply Hn, keys_in; eauto). split.
  - destruct Hj as (_ & _ & _ & _ & _ & _ & _ & _ & _ & [(w & a & Hw & _ & (x & (_ & Jx) & Jb) & E)|(H & _)]); [|specialize (H (YMap mm)); discriminate H; now apply has_map].
    apply has_map in Hw. rewrite (keys_once _ _ _ _ Nd Hw Hl) in Jx. destruct Jx as [(u & c & Hu & _)|(_ & Ex)]; [apply has_map in Hu; elim (N _ Hu)|]. subst x. rewrite E. inversion Jb. reflexivity.
  - destruct Hy as (_ & _ & _ & _ & _ & _ & [(m2 & u & r & Hm & Hu & _)|(_ & E)]); [|exact E]. pose proof (keys_once _ _ _ _ Nd Hm Hl) as X. injection X as ->. elim (N _ Hu).
Qed.
(** Resources of the four types that YAML does not know are lost there. *)
Theorem C139_types_refuted : forall m b b' rs name d t, one_each (YMap m) ->
  load_json F parse_f64 k json_text of_int env (YMap m) = Ok b -> load F parse_f64 k env [YMap m] = Ok b' ->
  In (Some (chars "resources"), YMap rs) m -> In (Some name, YMap d) rs -> In (Some (chars "type"), YStr t) d -> In (chars "spec") (keys_of d) -> In t json_only_types ->
  In name (map fst (rb_res _ _ _ _ _ b)) /\ ~ In name (map fst (rb_res _ _ _ _ _ b')).
Proof.
  intros m b b' rs name d t P Hj Hy Hrs Hd Ht Hsp Hty. pose proof (one_each_map _ _ _ P Hrs) as Pr. pose proof (one_each_map _ _ _ Pr Hd) as Pd. split.
  - apply (C128_kept_partial F parse_f64 k Hk json_text of_int env m b rs Hj Hrs); [now apply one_each_keys|]. exists d, t. split; [exact Hd|]. split; [|split; [|exact Hsp]].
    + destruct (in_split _ _ Ht) as (pre & post & E). exists pre, post. split; [exact E|]. pose proof (one_each_keys _ Pd) as N. rewrite E in N. unfold keys_of in N. rewrite flat_map_app in N. cbn in N. apply NoDup_remove_2 in N. intros H. apply N, in_or_app. now left.
    + cbn in Hty |- *. clear -Hty. intuition (subst; auto 20).
  - intros H. apply (C121_kept_partial F parse_f64 k env Hk m b' rs P Hy Hrs) in H. destruct H as (d' & t' & Hd' & Ht' & H).
    pose proof (keys_once _ _ _ _ (one_each_keys _ Pr) Hd Hd') as X. injection X as <-. pose proof (keys_once _ _ _ _ (one_each_keys _ Pd) Ht Ht') as X. injection X as <-.
    clear -H Hty. cbn in H, Hty. repeat (destruct Hty as [<-|Hty]; [repeat (destruct H as [H|H]; [discriminate H|]); exact H|]). exact Hty.
Qed.
End Params.

(** * Documents that meet the hypotheses *)
Fixpoint parts (v : yaml) : list yaml :=
  v :: match v with YSeq l => flat_map parts l | YMap m => flat_map (fun e => match e with (_, w) => parts w end) m | _ => [] end.
Lemma inside_parts w v : inside w v -> In w (parts v).
Proof.
  induction 1 as [|u l Hin Hi IH|key u m Hin Hi IH]; [destruct w; now left| |]; right; apply in_flat_map; [eauto|]. exists (key, u). auto.
Qed.
Definition among (key : text) (l : list text) : bool := existsb (text_eqb key) l.
Definition arrayless (v : yaml) : bool := match v with YSeq _ => false | _ => true end.
Definition entry_ok (key : text) (w : yaml) : bool :=
  (negb (among key object_keys) || arrayless w) &&
  (negb (among key name_keys) || match w with YMap m => forallb (fun e => arrayless (snd e)) m | _ => true end) &&
  (negb (among key list_keys) || match w with YSeq l => forallb arrayless l | _ => true end) &&
  (negb (among key free_keys) || forallb (fun x => match x with YStr t => negb (contains (chars "${") t) | _ => true end) (parts w)) &&
  (negb (text_eqb key (chars "sourceConfiguration")) || match w with YMap m => Nat.leb (length (filter (fun x => among x (keys_of m)) source_keys)) 1 | _ => true end).
Definition part_ok (v : yaml) : bool :=
  match v with
  | YInt z => ((- 2 ^ 63 <=? z) && (z <? 2 ^ 63))%Z
  | YMap m => forallb (fun e => match e with (Some key, w) => entry_ok key w | _ => true end) m
  | _ => true
  end.
Lemma among_in key l : In key l -> among key l = true.
Proof. intros H. apply existsb_exists. exists key. split; [exact H|]. now apply text_eqb_eq. Qed.
Lemma arrayless_ok v : arrayless v = true -> not_array v.
Proof. intros H l ->. discriminate. Qed.
Lemma portable_sound v : once v = true -> forallb part_ok (parts v) = true -> portable no_json v.
Proof.
  intros O H. rewrite forallb_forall in H.
  assert (P : forall w, inside w v -> part_ok w = true) by (intros w Hw; apply H; now apply inside_parts).
  assert (E : forall key w, member key w v -> entry_ok key w = true).
  { intros key w (m & Hm & Hi). apply P in Hm. cbn in Hm. rewrite forallb_forall in Hm. exact (Hm _ Hi). }
  split; [now apply once_sound|]. split; [intros z Hz; apply P in Hz; cbn -[Z.pow] in Hz; lia|]. split; [reflexivity|].
  split; [|split; [|split; [|split]]].
  - intros key w Hk Hw. apply E in Hw. unfold entry_ok in Hw. rewrite (among_in _ _ Hk) in Hw. apply arrayless_ok. repeat (apply andb_prop in Hw; destruct Hw as [Hw ?]). exact Hw.
  - intros key m n w Hk Hw Hi. apply E in Hw. unfold entry_ok in Hw. rewrite (among_in _ _ Hk) in Hw. repeat (apply andb_prop in Hw; destruct Hw as [Hw ?]). cbn [negb orb] in H3. rewrite forallb_forall in H3. apply arrayless_ok. exact (H3 _ Hi).
  - intros key m w Hk Hw Hi. apply E in Hw. unfold entry_ok in Hw. rewrite (among_in _ _ Hk) in Hw. repeat (apply andb_prop in Hw; destruct Hw as [Hw ?]). cbn [negb orb] in H2. rewrite forallb_forall in H2. apply arrayless_ok. exact (H2 _ Hi).
  - intros key w t Hk Hw Hi. apply E in Hw. unfold entry_ok in Hw. rewrite (among_in _ _ Hk) in Hw. repeat (apply andb_prop in Hw; destruct Hw as [Hw ?]). cbn [negb orb] in H1. rewrite forallb_forall in H1. specialize (H1 _ (inside_parts _ _ Hi)). now apply negb_true_iff.
  - intros m x y Hw Hx Hy Kx Ky. apply E in Hw. unfold entry_ok in Hw. rewrite (proj2 (text_eqb_eq _ _) eq_refl) in Hw. repeat (apply andb_prop in Hw; destruct Hw as [Hw ?]). cbn [negb orb] in H0. apply Nat.leb_le in H0.
    assert (Fx : In x (filter (fun x => among x (keys_of m)) source_keys)) by (apply filter_In; split; [exact Hx|now apply among_in]).
    assert (Fy : In y (filter (fun x => among x (keys_of m)) source_keys)) by (apply filter_In; split; [exact Hy|now apply among_in]).
    destruct (filter _ source_keys) as [|a [|b l]]; [destruct Fx| |cbn in H0; lia]. destruct Fx as [<-|[]], Fy as [<-|[]]. reflexivity.
Qed.
(** A document with an api, a handler, a consumer and a workflow *)
Definition pdoc (transform : yaml) (extra : list (option text * yaml)) (meta : list (option text * yaml)) : list (option text * yaml) :=
  [(K "version", T "2025-05-12"); (K "transform", transform);
   (K "variables", YMap [(K "size", YMap [(K "type", T "integer"); (K "default", YInt 5)])]);
   (K "resources", YMap ([(K "save", YMap [(K "type", T "celerity/handler"); (K "metadata", YMap [(K "displayName", T "Save ${variables.stage}")]);
                                           (K "linkSelector", YMap [(K "byLabel", YMap [(K "app", T "orders")])]); (K "spec", YMap [(K "handlerName", T "Save"); (K "codeLocation", T "./src"); (K "handler", T "save"); (K "timeout", YInt 30)])]);
                          (K "api", YMap [(K "type", T "celerity/api"); (K "metadata", YMap [(K "displayName", T "Api")]); (K "spec", YMap [(K "protocols", YSeq [T "http"]); (K "cors", YMap [(K "allowOrigins", YSeq [T "https://example.com"])])])]);
                          (K "intake", YMap [(K "type", T "celerity/consumer"); (K "metadata", YMap [(K "displayName", T "Intake")]); (K "spec", YMap [(K "sourceId", T "orders-${variables.stage}"); (K "batchSize", YInt 10)])])] ++ extra));
   (K "metadata", YMap meta)].
Notation shared_part := [(K "sharedHandlerConfig", YMap [(K "runtime", T "nodejs22"); (K "memory", YInt 512)])].
Definition pbucket : option text * yaml := (K "files", YMap [(K "type", T "celerity/bucket"); (K "spec", YMap [(K "name", T "files")])]).
Notation lj := (load_json Z tenths ascii_classes no_json (fun z => z) values_for).
Notation ly := (fun m => load Z tenths ascii_classes values_for [m]).
(** A workflow whose state has a result with a reference in it: YAML replaces it, JSON keeps it as it is. *)
Definition pworkflow : option text * yaml :=
  (K "flow", YMap [(K "type", T "celerity/workflow"); (K "spec", YMap [(K "startAt", T "a"); (K "states", YMap [(K "a", YMap [(K "type", T "pass"); (K "result", YMap [(K "v", T "${variables.stage}")]); (K "end", YBool true)])])])]).
Definition result_at (b : loaded Z) : option (rnode Z) :=
  match rev (rb_res _ _ _ _ _ b) with
  | (_, r) :: _ => match rr_spec _ _ _ r with RWorkflow _ (_, (_, st) :: _) => rs_result _ st | _ => None end
  | [] => None
  end.
Theorem C139_reference_refuted : exists m b b', one_each (YMap m) /\ lj (YMap m) = Ok b /\ ly (YMap m) = Ok b' /\
  result_at b = Some (RMap Z [(chars "v", RScalar Z (SStr Z (chars "${variables.stage}")))]) /\ result_at b' = Some (RMap Z [(chars "v", RScalar Z (SInt Z 7))]).
Proof.
  exists (pdoc (T "celerity-2026-02-27-draft") [pworkflow] shared_part). eexists. eexists. split; [apply once_sound; vm_compute; reflexivity|].
  split; [vm_compute; reflexivity|]. split; [vm_compute; reflexivity|]. split; reflexivity.
Qed.
Lemma pdoc_portable : portable_document no_json (pdoc (T "celerity-2026-02-27-draft") [] shared_part).
Proof.
  split; [apply portable_sound; vm_compute; reflexivity|]. split; [|split].
  - intros v Hv l ->. cbn in Hv. repeat (destruct Hv as [Hv|Hv]; [discriminate Hv|]). exact Hv.
  - intros rs name d t Hr Hd Ht Hn. cbn in Hr. repeat (destruct Hr as [Hr|Hr]; [first [discriminate Hr|injection Hr as <-]|]); [|exact Hr].
    cbn in Hd. repeat (destruct Hd as [Hd|Hd]; [first [discriminate Hd|injection Hd as <- <-]; cbn in Ht; repeat (destruct Ht as [Ht|Ht]; [first [discriminate Ht|injection Ht as <-; cbn in Hn; repeat (destruct Hn as [Hn|Hn]; [discriminate Hn|]); exact Hn]|]); exact Ht|]). exact Hd.
  - intros v Hv. eexists. eexists. cbn in Hv. repeat (destruct Hv as [Hv|Hv]; [first [discriminate Hv|injection Hv as <-; split; [reflexivity|now left]]|]). destruct Hv.
Qed.
Example C138_nonvacuous :
  let h := [(K "handlerName", T "Save"); (K "handler", T "save-${variables.stage}"); (K "timeout", YInt 30)] in
  let q := [(K "name", T "in")] in
  portable no_json (YMap h) /\
  (exists s s' r, j_spec Z tenths ascii_classes no_json THandler (YMap h) = Ok s /\ resolve_spec Z tenths values_for s = Ok r /\ y_spec Z tenths ascii_classes THandler h = Ok s' /\ resolve_spec Z tenths values_for s' = Ok r) /\
  (exists x x' r, j_metadata Z tenths ascii_classes no_json (YMap [(K "displayName", T "Save ${variables.stage}")]) = Ok x /\ resolve_metadata Z tenths values_for x = Ok r /\
     y_metadata Z tenths ascii_classes [(K "displayName", T "Save ${variables.stage}")] = Ok x' /\ resolve_metadata Z tenths values_for x' = Ok r) /\
  one_each (YMap q) /\ ~ In (chars "fifo") (keys_of q) /\
  (exists s s' r r', j_spec Z tenths ascii_classes no_json TQueue (YMap q) = Ok s /\ resolve_spec Z tenths values_for s = Ok r /\ y_spec Z tenths ascii_classes TQueue q = Ok s' /\ resolve_spec Z tenths values_for s' = Ok r').
Proof.
  cbv zeta. split; [apply portable_sound; vm_compute; reflexivity|].
  split; [do 3 eexists; split; [vm_compute; reflexivity|]; split; [vm_compute; reflexivity|]; split; [vm_compute; reflexivity|]; vm_compute; reflexivity|].
  split; [do 3 eexists; split; [vm_compute; reflexivity|]; split; [vm_compute; reflexivity|]; split; [vm_compute; reflexivity|]; vm_compute; reflexivity|].
  split; [apply once_sound; vm_compute; reflexivity|]. split; [intros H; cbn in H; destruct H as [H|[]]; discriminate H|].
  do 4 eexists; split; [vm_compute; reflexivity|]; split; [vm_compute; reflexivity|]; split; [vm_compute; reflexivity|]; vm_compute; reflexivity.
Qed.
Example C139_nonvacuous :
  portable_document no_json (pdoc (T "celerity-2026-02-27-draft") [] shared_part) /\
  (exists b, lj (YMap (pdoc (T "celerity-2026-02-27-draft") [] shared_part)) = Ok b /\ ly (YMap (pdoc (T "celerity-2026-02-27-draft") [] shared_part)) = Ok b /\
     map (fun r => rme_name Z (rr_meta _ _ _ (snd r))) (rb_res _ _ _ _ _ b) = [chars "Save 7"; chars "Api"; chars "Intake"]) /\
  let d := pdoc (YSeq [T "celerity-2026-02-27-draft"]) [pbucket] [] in one_each (YMap d) /\ (exists b b', lj (YMap d) = Ok b /\ ly (YMap d) = Ok b').
Proof.
  split; [exact pdoc_portable|]. split; [eexists; split; [vm_compute; reflexivity|]; split; [vm_compute; reflexivity|reflexivity]|].
  cbv zeta. split; [apply once_sound; vm_compute; reflexivity|]. do 2 eexists. split; [vm_compute; reflexivity|]. vm_compute; reflexivity.
Qed.

Print Assumptions C138_spec_partial.
Print Assumptions C138_metadata_partial.
Print Assumptions C138_fifo_refuted.
Print Assumptions C139_document_partial.
Print Assumptions C139_transform_refuted.
Print Assumptions C139_metadata_refuted.
Print Assumptions C139_types_refuted.
Print Assumptions C139_reference_refuted.
