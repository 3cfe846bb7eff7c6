(** Lemmas for C112 to C115 *)
From Verif Require Import Base Chars SubstModel ResolveModel BlueprintModel WfYamlModel WfYamlSpec WfYamlProofs SpecYamlModel SpecYamlSpec.
Local Open Scope list_scope.

(** * Lenient fields *)
Definition sets_some {X A} (step : X -> option text * yaml -> outcome yerr X) (g : X -> option A) (key : text) (ok : yaml -> Prop) (f : yaml -> outcome yerr A) : Prop :=
  (forall x v x', step x (Some key, v) = Ok x' -> (ok v /\ exists a, f v = Ok a /\ g x' = Some a) \/ (~ ok v /\ g x' = g x)) /\
  (forall x kx v x', kx <> Some key -> step x (kx, v) = Ok x' -> g x' = g x).
Lemma fold_some {X A} step (g : X -> option A) key ok f m : sets_some step g key ok f -> NoDup (keys_of m) -> forall x x', foldo step x m = Ok x' ->
  (exists v a, In (Some key, v) m /\ ok v /\ f v = Ok a /\ g x' = Some a) \/ ((forall v, In (Some key, v) m -> ~ ok v) /\ g x' = g x).
Proof.
  intros [Hs Hk]. induction m as [|[kx v] m IH]; intros Hn x x'; cbn [foldo].
  - intros [= ->]. right. split; [intros v []|reflexivity].
  - intros H. apply obind_ok in H. destruct H as (y & Hy & Hf).
    assert (Hn' : NoDup (keys_of m)). { unfold keys_of in Hn |- *. cbn in Hn. destruct kx; [now inversion Hn|exact Hn]. }
    destruct (IH Hn' y x' Hf) as [(w & a & Hw & Q)|(Hl & E)]; [left; exists w, a; split; [now right|exact Q]|].
    assert (D : kx = Some key \/ kx <> Some key).
    { destruct kx as [key'|]; [|right; discriminate]. destruct (text_eqb_spec key' key); [left|right]; congruence. }
    destruct D as [->|D].
    + destruct (Hs _ _ _ Hy) as [(Ho & a & Ha & Eg)|(Ho & Eg)].
      * left. exists v, a. repeat split; [now left|exact Ho|exact Ha|congruence].
      * right. split; [|congruence]. intros w [[= ->]|Hw]; [exact Ho|now apply Hl].
    + right. split; [|rewrite E; now apply Hk with (kx := kx) (v := v)].
      intros w [[= -> _]|Hw]; [now elim D|now apply Hl].
Qed.
Lemma to_lenient {X A} step (g : X -> option A) key ok f R m x x' : sets_some step g key ok f -> NoDup (keys_of m) -> foldo step x m = Ok x' ->
  g x = None -> exact_on m key f R -> lenient m key ok R (g x').
Proof.
  intros Hs Hn Hf E0 He. destruct (fold_some step g key ok f m Hs Hn x x' Hf) as [(v & a & Hi & Ho & Ea & E)|(Hl & E)].
  - left. exists v, a. repeat split; [exact Hi|exact Ho|now apply (He v Hi)|exact E].
  - right. split; [exact Hl|congruence].
Qed.
Lemma lenient_once {A} m key ok (R : yaml -> A -> Prop) a b : NoDup (keys_of m) ->
  (forall v, In (Some key, v) m -> forall x y, R v x -> R v y -> x = y) -> lenient m key ok R a -> lenient m key ok R b -> a = b.
Proof.
  intros Hn HR [(v & x & Hi & Ho & Hx & ->)|[Hl ->]] [(w & y & Hj & Hp & Hy & ->)|[Hl' ->]].
  - assert (v = w) as <- by (eapply keys_once; eassumption). f_equal. eapply HR; eassumption.
  - now elim (Hl' v Hi).
  - now elim (Hl w Hj).
  - reflexivity.
Qed.
Lemma entry_lenient {A} m key ok (f : yaml -> outcome yerr A) R o v : NoDup (keys_of m) -> exact_on m key f R -> lenient m key ok R o -> In (Some key, v) m -> ok v ->
  exists a, f v = Ok a.
Proof.
  intros Hn He [(w & x & Hi & Ho & Hx & ->)|[Hl ->]] Hv Hok; [|now elim (Hl v Hv)].
  assert (v = w) as -> by (eapply keys_once; eassumption). exists x. now apply (He w Hi).
Qed.
Lemma exact_some {A} m key (f : yaml -> outcome yerr A) R : exact_on m key f R ->
  exact_on m key (fun v => omap Some (f v)) (fun v o => exists a, R v a /\ o = Some a).
Proof.
  intros He v Hv o. rewrite omap_ok. split; intros (a & Ha & ->); exists a; (split; [now apply (He v Hv)|reflexivity]).
Qed.

(** * Fields by [get] *)
Lemma need_ok {A} key (f : yaml -> outcome yerr A) R m : NoDup (keys_of m) -> exact_on m key f R -> forall a, need_field key f m = Ok a <-> required m key R a.
Proof.
  intros Hn He a. unfold need_field, required. destruct (yget key m) as [v|] eqn:E.
  - apply (yget_in unit (fun _ => None) _ _ _ Hn) in E. rewrite (He v E). split; [eauto|]. intros (w & Hw & Hr). assert (v = w) as -> by (eapply keys_once; eassumption). exact Hr.
  - split; [discriminate|]. intros (w & Hw & _). apply (yget_in unit (fun _ => None) _ _ _ Hn) in Hw. congruence.
Qed.
Lemma may_ok {A} key (f : yaml -> outcome yerr A) R m : NoDup (keys_of m) -> exact_on m key f R -> forall o, may_field key f m = Ok o <-> optional m key R o.
Proof.
  intros Hn He o. unfold may_field, optional. destruct (yget key m) as [v|] eqn:E.
  - apply (yget_in unit (fun _ => None) _ _ _ Hn) in E. rewrite omap_ok. split.
    + intros (a & Ha & ->). left. exists v, a. repeat split; [exact E|now apply (He v E)].
    + intros [(w & a & Hw & Hr & ->)|[Hl _]]; [|exfalso; apply Hl, keys_in; eauto].
      assert (v = w) as -> by (eapply keys_once; eassumption). exists a. split; [now apply (He w E)|reflexivity].
  - split.
    + intros [= <-]. right. split; [|reflexivity]. intros Hi. apply keys_in in Hi. destruct Hi as (w & Hw). apply (yget_in unit (fun _ => None) _ _ _ Hn) in Hw. congruence.
    + intros [(w & a & Hw & _)|[_ ->]]; [|reflexivity]. apply (yget_in unit (fun _ => None) _ _ _ Hn) in Hw. congruence.
Qed.

(** * Shapes *)
Lemma exact_seq {A} (f : yaml -> outcome yerr A) R m key : (forall l v, In (Some key, YSeq l) m -> In v l -> forall a, f v = Ok a <-> R v a) ->
  exact_on m key (y_seq f) (is_seq R).
Proof.
  intros H v Hv r. unfold y_seq, is_seq. destruct v; try (split; [discriminate|intros (? & ? & _); discriminate]).
  rewrite (collect_all R f l) by (intros a Ha; eapply H; eassumption). split; [eauto|now intros (? & [= ->] & ?)].
Qed.
Lemma named_ok {A} (f : list (option text * yaml) -> outcome yerr A) R m : (forall key m', In (Some key, YMap m') m -> forall a, f m' = Ok a <-> R m' a) ->
  forall r, y_named f m = Ok r <-> are_named R m r.
Proof.
  intros H r. apply collect_flat. intros [[key|] v] Ha; [|left; split; reflexivity].
  destruct v as [t|z|t|b| |l|m']; try (left; split; reflexivity).
  right. exists (key, m'). split; [reflexivity|]. intros o. rewrite obind_ok. split.
  - intros (a & Hb & [= <-]). exists (key, a). split; [split; [reflexivity|]|reflexivity]. cbn. eapply H; eassumption.
  - intros ((key', a) & (Hk & Hb) & ->). cbn in Hk, Hb. subst key'. exists a. split; [eapply H; eassumption|reflexivity].
Qed.
Lemma exact_map {A} (f : list (option text * yaml) -> outcome yerr A) R m key : one_each (YMap m) -> (forall m', one_each (YMap m') -> forall a, f m' = Ok a <-> R m' a) ->
  exact_on m key (y_mapping f) (is_mapping R).
Proof. intros Hm H v Hv. apply mapping_ok. intros m' ->. apply H. eapply one_each_map; eassumption. Qed.
Lemma exact_named {A} (f : list (option text * yaml) -> outcome yerr A) R m key : one_each (YMap m) -> (forall m', one_each (YMap m') -> forall a, f m' = Ok a <-> R m' a) ->
  exact_on m key (y_mapping (y_named f)) (is_mapping (are_named R)).
Proof. intros Hm H. apply exact_map; [exact Hm|]. intros m' Hm'. apply named_ok. intros key' m'' Hi. apply H. eapply one_each_map; eassumption. Qed.
Lemma string_ok v t : y_string v = Ok t <-> is_string v t.
Proof. unfold is_string. destruct v; cbn; split; congruence. Qed.
Lemma plain_bool_ok v t : y_plain_bool v = Ok t <-> is_plain_bool v t.
Proof. unfold is_plain_bool. destruct v; cbn; split; congruence. Qed.
Lemma labels_ok m r : y_labels m = Ok r <-> are_labels m r.
Proof. apply (collect_entries (fun v t => v = YStr t) y_string). intros key v _ b. apply string_ok. Qed.
Lemma selector_ok m r : one_each (YMap m) -> (y_selector m = Ok r <-> is_selector m r).
Proof.
  intros Hm. apply need_ok; [now apply one_each_keys|]. intros v Hv. apply mapping_ok. intros m' _ b. unfold named_texts. split; [intros [= <-]; reflexivity|intros ->; reflexivity].
Qed.
Lemma empty_ok ps : parts_empty ps = true <-> is_empty ps.
Proof. unfold is_empty. destruct ps as [|[[|]|] [|]]; cbn; split; intuition congruence. Qed.
Lemma nempty_ok ps : parts_empty ps = false <-> ~ is_empty ps.
Proof. rewrite <- empty_ok. destruct (parts_empty ps); split; congruence. Qed.
Lemma guard_type_ok v ps : y_guard_type v = Ok ps <-> is_guard_type v ps.
Proof.
  unfold is_guard_type. destruct v; try (split; [discriminate|intros (? & ? & _); discriminate]). cbn [y_guard_type].
  destruct (text_eqb_spec t (chars "jwt")) as [->|N1].
  { split; [intros [= <-]; exists (chars "jwt"); repeat split; now left|intros (u & [= <-] & _ & ->); reflexivity]. }
  destruct (text_eqb_spec t (chars "custom")) as [->|N2].
  { split; [intros [= <-]; exists (chars "custom"); repeat split; right; now left|intros (u & [= <-] & _ & ->); reflexivity]. }
  split; [discriminate|]. intros (u & [= <-] & [E|[E|[]]] & _); congruence.
Qed.
Lemma event_type_ok v ty : y_event_type v = Ok ty <-> exists t, v = YStr t /\ In (t, ty) event_names.
Proof.
  destruct v; try (split; [discriminate|intros (? & ? & _); discriminate]). unfold y_event_type, event_names.
  destruct (text_eqb_spec t (chars "objectStorage")) as [->|N1].
  { split; [intros [= <-]; exists (chars "objectStorage"); split; [reflexivity|now left]|].
    intros (u & [= <-] & [E|[E|[E|[]]]]); injection E; congruence. }
  destruct (text_eqb_spec t (chars "dbStream")) as [->|N2].
  { split; [intros [= <-]; exists (chars "dbStream"); split; [reflexivity|right; now left]|].
    intros (u & [= <-] & [E|[E|[E|[]]]]); injection E; congruence. }
  destruct (text_eqb_spec t (chars "dataStream")) as [->|N3].
  { split; [intros [= <-]; exists (chars "dataStream"); split; [reflexivity|right; right; now left]|].
    intros (u & [= <-] & [E|[E|[E|[]]]]); injection E; congruence. }
  split; [discriminate|]. intros (u & [= <-] & [E|[E|[E|[]]]]); injection E; congruence.
Qed.

Ltac keyc := repeat match goal with |- context [text_eqb (chars ?a) (chars ?b)] =>
  let r := eval cbv in (text_eqb (chars a) (chars b)) in change (text_eqb (chars a) (chars b)) with r; cbv iota end.
Ltac other_tac :=
  first [ intros H; injection H as <-; reflexivity
        | intros H; apply obind_ok in H; destruct H as (a & Ha & H); injection H as <-; reflexivity
        | match goal with v : yaml |- _ => destruct v end; first [ intros H; injection H as <-; reflexivity
             | intros H; apply obind_ok in H; destruct H as (a & Ha & H); injection H as <-; reflexivity] ].
Ltac others entry :=
  intros x [key'|] v x' D; unfold entry; [|intros H; injection H as <-; reflexivity];
  repeat match goal with |- context [text_eqb key' (chars ?b)] =>
      destruct (text_eqb_spec key' (chars b)) as [->|?]; [first [now elim D|other_tac]|] end;
  intros H; injection H as <-; reflexivity.
Ltac sets_tac entry :=
  split;
  [ intros x v x'; unfold entry; keyc; intros H; apply obind_ok in H; destruct H as (a & Ha & H); injection H as <-;
    first [exact Ha|exact (f_equal (omap Some) Ha)]
  | others entry ].
Ltac shape_ok := first [ eexists; reflexivity | left; eexists; reflexivity | right; eexists; reflexivity ].
Ltac shape_no := first [ intros (? & ?); discriminate | intros [(? & ?)|(? & ?)]; discriminate ].
Ltac some_tac entry :=
  split;
  [ intros x v x'; unfold entry; keyc; destruct v; intros H;
    first [ injection H as <-; right; split; [shape_no|reflexivity]
          | apply obind_ok in H; destruct H as (a & Ha & H); injection H as <-; left; split; [shape_ok|]; exists a; split; [exact Ha|reflexivity] ]
  | others entry ].

Section Params.
Variable F : Type.
Variable parse_f64 : text -> option F.
Variable k : classes.

Lemma strmap_ok m r : y_strmap k m = Ok r <-> is_strmap k m r.
Proof. apply (collect_entries (is_text k) (y_text k)). intros key v _ b. apply text_ok. Qed.
Lemma exact_strmap m key : exact_on m key (y_mapping (y_strmap k)) (is_mapping (is_strmap k)).
Proof. intros v _. apply mapping_ok. intros m' _. apply strmap_ok. Qed.
Lemma exact_ytexts m key : exact_on m key (y_texts k) (is_texts k).
Proof. intros v _. apply texts_ok. Qed.
Lemma scalar_ok v s : y_scalar F parse_f64 v = Ok s <-> is_scalar F parse_f64 v s.
Proof.
  destruct v; cbn [y_scalar]; try (split; [discriminate|intros H; inversion H]); try (split; [intros [= <-]; constructor|intros H; inversion H; reflexivity]).
  destruct (parse_f64 t) as [f|] eqn:E; split; try discriminate; [intros [= <-]; now constructor|intros H; inversion H; congruence..].
Qed.
Lemma plain_protocol_ok v n : y_plain_protocol F v = Ok n <-> is_plain_protocol F v n.
Proof.
  unfold is_plain_protocol. destruct v; try (split; [discriminate|intros (? & ? & _); discriminate]). cbn [y_plain_protocol].
  destruct (text_eqb_spec t (chars "http")) as [->|N1].
  { split; [intros [= <-]; exists (chars "http"); repeat split; now left|intros (u & [= <-] & _ & ->); reflexivity]. }
  destruct (text_eqb_spec t (chars "websocket")) as [->|N2].
  { split; [intros [= <-]; exists (chars "websocket"); repeat split; right; now left|intros (u & [= <-] & _ & ->); reflexivity]. }
  split; [discriminate|]. intros (u & [= <-] & [E|[E|[]]] & _); congruence.
Qed.
Lemma filter_flat {A B} (p : A -> bool) (f : B -> list A) l : filter p (flat_map f l) = flat_map (fun b => filter p (f b)) l.
Proof. induction l as [|b l IH]; cbn; [reflexivity|]. rewrite filter_app, IH. reflexivity. Qed.
Lemma websocket_ok m n : y_websocket F k m = Ok n <-> is_websocket F k m n.
Proof.
  unfold y_websocket, is_websocket. rewrite omap_ok. unfold entries_of. rewrite filter_flat.
  assert (C : forall r, collect (fun e : option text * yaml => match e with
    | (Some key, v) =>
        if text_eqb key (chars "routeKey") then let! a := y_text k v in Ok (Some (chars "routeKey", NSub F a))
        else if text_eqb key (chars "authStrategy") then let! a := y_text k v in Ok (Some (chars "authStrategy", NSub F a))
        else Ok None
    | (None, _) => Ok None
    end) m = Ok r <-> Forall2 (fun a b => fst a = fst b /\ exists ps, is_text k (snd a) ps /\ snd b = NSub F ps)
      (flat_map (fun b => filter (fun e => text_eqb (fst e) (chars "routeKey") || text_eqb (fst e) (chars "authStrategy"))
        match fst b with Some key => [(key, snd b)] | None => [] end) m) r).
  { apply collect_flat. intros [[key|] v] _; [|left; split; reflexivity]. cbn [fst snd filter].
    destruct (text_eqb_spec key (chars "routeKey")) as [->|N1]; cbn [orb].
    - right. exists (chars "routeKey", v). split; [reflexivity|]. intros o. rewrite obind_ok. split.
      + intros (a & Ha & [= <-]). exists (chars "routeKey", NSub F a). split; [split; [reflexivity|]; exists a; split; [now apply text_ok|reflexivity]|reflexivity].
      + intros ((key', b) & (Ek & ps & Hp & Eb) & ->). cbn in Ek, Eb. subst. exists ps. split; [now apply text_ok|reflexivity].
    - destruct (text_eqb_spec key (chars "authStrategy")) as [->|N2].
      + right. exists (chars "authStrategy", v). split; [reflexivity|]. intros o. rewrite obind_ok. split.
        * intros (a & Ha & [= <-]). exists (chars "authStrategy", NSub F a). split; [split; [reflexivity|]; exists a; split; [now apply text_ok|reflexivity]|reflexivity].
        * intros ((key', b) & (Ek & ps & Hp & Eb) & ->). cbn in Ek, Eb. subst. exists ps. split; [now apply text_ok|reflexivity].
      + left. split; reflexivity. }
  split; intros (r & H1 & H2); exists r; (split; [first [exact H2|now apply C]|first [exact H1|now apply C]]).
Qed.
Lemma protocol_ok v n : one_each v -> (y_protocol F k v = Ok n <-> is_protocol F k v n).
Proof.
  intros Hv. unfold is_protocol. destruct v as [t|z|t|b| |l|m].
  7: { cbn [y_protocol]. rewrite omap_ok. split.
       - intros (w & Hw & ->). right. exists m, w. split; [reflexivity|]. split; [|reflexivity].
         eapply need_ok; [now apply one_each_keys| |exact Hw]. intros u _. apply mapping_ok. intros m' _. apply websocket_ok.
       - intros [(t & E & _)|(m' & w & [= <-] & Hw & ->)]; [discriminate|]. exists w. split; [|reflexivity].
         eapply need_ok; [now apply one_each_keys| |exact Hw]. intros u _. apply mapping_ok. intros m' _. apply websocket_ok. }
  all: change (y_protocol F k) with (fun v => y_protocol F k v); cbn [y_protocol]; rewrite plain_protocol_ok; split; [now left|intros [H|(m' & w & E & _)]; [exact H|discriminate]].
Qed.

Lemma var_ok m z : one_each (YMap m) -> (y_var F parse_f64 m = Ok z <-> is_var F parse_f64 m z).
Proof.
  intros Hm. pose proof (one_each_keys m Hm) as Hn.
  assert (S1 : sets (var_entry F parse_f64) (va_type F) (chars "type") (y_string)) by sets_tac (@var_entry).
  assert (X1 : exact_on m (chars "type") (y_string) (is_string)) by exact ((fun v _ => string_ok v)).
  assert (S2 : sets_some (var_entry F parse_f64) (va_allowed F) (chars "allowedValues") is_a_sequence (y_seq (y_scalar F parse_f64))) by some_tac (@var_entry).
  assert (X2 : exact_on m (chars "allowedValues") (y_seq (y_scalar F parse_f64)) (is_seq (is_scalar F parse_f64))) by exact (exact_seq _ _ m _ (fun l v _ _ => scalar_ok v)).
  assert (S3 : sets (var_entry F parse_f64) (va_default F) (chars "default") (fun v => omap Some (y_scalar F parse_f64 v))) by sets_tac (@var_entry).
  assert (X3 : exact_on m (chars "default") (y_scalar F parse_f64) (is_scalar F parse_f64)) by exact ((fun v _ => scalar_ok v)).
  assert (S4 : sets (var_entry F parse_f64) (va_description F) (chars "description") (fun v => omap Some (y_string v))) by sets_tac (@var_entry).
  assert (X4 : exact_on m (chars "description") (y_string) (is_string)) by exact ((fun v _ => string_ok v)).
  assert (S5 : sets (var_entry F parse_f64) (va_secret F) (chars "secret") (fun v => omap Some (y_plain_bool v))) by sets_tac (@var_entry).
  assert (X5 : exact_on m (chars "secret") (y_plain_bool) (is_plain_bool)) by exact ((fun v _ => plain_bool_ok v)).
  assert (FW : forall x, foldo (var_entry F parse_f64) (empty_var F) m = Ok x -> defaults m (chars "type") is_string [] (va_type F x) /\ lenient m (chars "allowedValues") is_a_sequence (is_seq (is_scalar F parse_f64)) (va_allowed F x) /\ optional m (chars "default") (is_scalar F parse_f64) (va_default F x) /\ optional m (chars "description") is_string (va_description F x) /\ optional m (chars "secret") is_plain_bool (va_secret F x)).
  { intros x0 Hf. refine (conj _ _). { exact (to_defaults _ _ _ _ _ _ _ _ S1 Hn Hf X1). }  refine (conj _ _). { exact (to_lenient _ _ _ _ _ _ _ _ _ S2 Hn Hf eq_refl X2). }  refine (conj _ _). { exact (to_optional _ _ _ _ _ _ _ _ S3 Hn Hf eq_refl X3). }  refine (conj _ _). { exact (to_optional _ _ _ _ _ _ _ _ S4 Hn Hf eq_refl X4). }  exact (to_optional _ _ _ _ _ _ _ _ S5 Hn Hf eq_refl X5). }
  assert (BW : forall x, defaults m (chars "type") is_string [] (va_type F x) /\ lenient m (chars "allowedValues") is_a_sequence (is_seq (is_scalar F parse_f64)) (va_allowed F x) /\ optional m (chars "default") (is_scalar F parse_f64) (va_default F x) /\ optional m (chars "description") is_string (va_description F x) /\ optional m (chars "secret") is_plain_bool (va_secret F x) -> foldo (var_entry F parse_f64) (empty_var F) m = Ok x).
  { intros x0 (H1 & H2 & H3 & H4 & H5).
    assert (R : exists x', foldo (var_entry F parse_f64) (empty_var F) m = Ok x').
    { apply fold_runs. intros [key|] v Hi y; unfold var_entry; [|eauto].
      destruct (text_eqb_spec key (chars "type")) as [->|?].
      { pose proof (entry_default _ _ _ _ _ _ v Hn X1 H1 Hi) as Ha. rewrite Ha. cbn [obind]. eauto. }
      destruct (text_eqb_spec key (chars "allowedValues")) as [->|?].
      { pose proof (entry_lenient _ _ _ _ _ _ v Hn X2 H2 Hi) as Ha. destruct v; try (eexists; reflexivity); destruct Ha as (a & Ha); try shape_ok; rewrite Ha; cbn [obind]; eauto. }
      destruct (text_eqb_spec key (chars "default")) as [->|?].
      { destruct (entry_optional _ _ _ _ _ v Hn X3 H3 Hi) as (a & Ha). rewrite Ha. cbn [obind]. eauto. }
      destruct (text_eqb_spec key (chars "description")) as [->|?].
      { destruct (entry_optional _ _ _ _ _ v Hn X4 H4 Hi) as (a & Ha). rewrite Ha. cbn [obind]. eauto. }
      destruct (text_eqb_spec key (chars "secret")) as [->|?].
      { destruct (entry_optional _ _ _ _ _ v Hn X5 H5 Hi) as (a & Ha). rewrite Ha. cbn [obind]. eauto. }
      eauto. }
    destruct R as (x1 & Hx). rewrite Hx. f_equal. destruct (FW x1 Hx) as (G1 & G2 & G3 & G4 & G5).
    pose proof (defaults_once _ _ _ _ _ _ Hn (exact_once _ _ _ _ X1) G1 H1) as U1.
    pose proof (lenient_once _ _ _ _ _ _ Hn (exact_once _ _ _ _ X2) G2 H2) as U2.
    pose proof (optional_once _ _ _ _ _ Hn (exact_once _ _ _ _ X3) G3 H3) as U3.
    pose proof (optional_once _ _ _ _ _ Hn (exact_once _ _ _ _ X4) G4 H4) as U4.
    pose proof (optional_once _ _ _ _ _ Hn (exact_once _ _ _ _ X5) G5 H5) as U5.
    clear -U1 U2 U3 U4 U5. destruct x0, x1. cbn in *. subst. reflexivity. }
  unfold y_var, is_var. rewrite obind_ok. split.
  - intros (x0 & Hx & Hc). pose proof (FW x0 Hx) as (H1 & H2 & H3 & H4 & H5).
    destruct (va_type F x0) as [|p l] eqn:E1; [discriminate|]. injection Hc as <-. rewrite E1 in *.
    repeat (split; [assumption|]). discriminate.
  - intros (H1 & H2 & H3 & H4 & H5 & HC). exists z. split; [apply BW; repeat (split; [assumption|]); assumption|]. destruct (va_type F z); [now elim HC|reflexivity].
Qed.
Lemma vars_ok m r : one_each (YMap m) -> (y_vars F parse_f64 m = Ok r <-> are_vars F parse_f64 m r).
Proof. intros Hm. apply named_ok. intros key m' Hi a. apply var_ok. eapply one_each_map; eassumption. Qed.
Lemma shared_ok m z : one_each (YMap m) -> (y_shared F k m = Ok z <-> is_shared F k m z).
Proof.
  intros Hm. pose proof (one_each_keys m Hm) as Hn.
  assert (S1 : sets (shared_entry F k) (hc_location F) (chars "codeLocation") (fun v => omap Some (y_text k v))) by sets_tac (@shared_entry).
  assert (X1 : exact_on m (chars "codeLocation") (y_text k) (is_text k)) by exact (exact_text k m _).
  assert (S2 : sets (shared_entry F k) (hc_runtime F) (chars "runtime") (fun v => omap Some (y_text k v))) by sets_tac (@shared_entry).
  assert (X2 : exact_on m (chars "runtime") (y_text k) (is_text k)) by exact (exact_text k m _).
  assert (S3 : sets (shared_entry F k) (hc_memory F) (chars "memory") (fun v => omap Some (y_int F k v))) by sets_tac (@shared_entry).
  assert (X3 : exact_on m (chars "memory") (y_int F k) (is_int F k)) by exact (exact_int F k m _).
  assert (S4 : sets (shared_entry F k) (hc_timeout F) (chars "timeout") (fun v => omap Some (y_int F k v))) by sets_tac (@shared_entry).
  assert (X4 : exact_on m (chars "timeout") (y_int F k) (is_int F k)) by exact (exact_int F k m _).
  assert (S5 : sets (shared_entry F k) (hc_tracing F) (chars "tracingEnabled") (fun v => omap Some (y_bool F k v))) by sets_tac (@shared_entry).
  assert (X5 : exact_on m (chars "tracingEnabled") (y_bool F k) (is_bool F k)) by exact (exact_bool F k m _).
  assert (S6 : sets (shared_entry F k) (hc_env F) (chars "environmentVariables") (fun v => omap Some (y_mapping (y_strmap k) v))) by sets_tac (@shared_entry).
  assert (X6 : exact_on m (chars "environmentVariables") (y_mapping (y_strmap k)) (is_mapping (is_strmap k))) by exact (exact_strmap m _).
  assert (FW : forall x, foldo (shared_entry F k) (empty_shared F) m = Ok x -> optional m (chars "codeLocation") (is_text k) (hc_location F x) /\ optional m (chars "runtime") (is_text k) (hc_runtime F x) /\ optional m (chars "memory") (is_int F k) (hc_memory F x) /\ optional m (chars "timeout") (is_int F k) (hc_timeout F x) /\ optional m (chars "tracingEnabled") (is_bool F k) (hc_tracing F x) /\ optional m (chars "environmentVariables") (is_mapping (is_strmap k)) (hc_env F x)).
  { intros x0 Hf. refine (conj _ _). { exact (to_optional _ _ _ _ _ _ _ _ S1 Hn Hf eq_refl X1). }  refine (conj _ _). { exact (to_optional _ _ _ _ _ _ _ _ S2 Hn Hf eq_refl X2). }  refine (conj _ _). { exact (to_optional _ _ _ _ _ _ _ _ S3 Hn Hf eq_refl X3). }  refine (conj _ _). { exact (to_optional _ _ _ _ _ _ _ _ S4 Hn Hf eq_refl X4). }  refine (conj _ _). { exact (to_optional _ _ _ _ _ _ _ _ S5 Hn Hf eq_refl X5). }  exact (to_optional _ _ _ _ _ _ _ _ S6 Hn Hf eq_refl X6). }
  assert (BW : forall x, optional m (chars "codeLocation") (is_text k) (hc_location F x) /\ optional m (chars "runtime") (is_text k) (hc_runtime F x) /\ optional m (chars "memory") (is_int F k) (hc_memory F x) /\ optional m (chars "timeout") (is_int F k) (hc_timeout F x) /\ optional m (chars "tracingEnabled") (is_bool F k) (hc_tracing F x) /\ optional m (chars "environmentVariables") (is_mapping (is_strmap k)) (hc_env F x) -> foldo (shared_entry F k) (empty_shared F) m = Ok x).
  { intros x0 (H1 & H2 & H3 & H4 & H5 & H6).
    assert (R : exists x', foldo (shared_entry F k) (empty_shared F) m = Ok x').
    { apply fold_runs. intros [key|] v Hi y; unfold shared_entry; [|eauto].
      destruct (text_eqb_spec key (chars "codeLocation")) as [->|?].
      { destruct (entry_optional _ _ _ _ _ v Hn X1 H1 Hi) as (a & Ha). rewrite Ha. cbn [obind]. eauto. }
      destruct (text_eqb_spec key (chars "runtime")) as [->|?].
      { destruct (entry_optional _ _ _ _ _ v Hn X2 H2 Hi) as (a & Ha). rewrite Ha. cbn [obind]. eauto. }
      destruct (text_eqb_spec key (chars "memory")) as [->|?].
      { destruct (entry_optional _ _ _ _ _ v Hn X3 H3 Hi) as (a & Ha). rewrite Ha. cbn [obind]. eauto. }
      destruct (text_eqb_spec key (chars "timeout")) as [->|?].
      { destruct (entry_optional _ _ _ _ _ v Hn X4 H4 Hi) as (a & Ha). rewrite Ha. cbn [obind]. eauto. }
      destruct (text_eqb_spec key (chars "tracingEnabled")) as [->|?].
      { destruct (entry_optional _ _ _ _ _ v Hn X5 H5 Hi) as (a & Ha). rewrite Ha. cbn [obind]. eauto. }
      destruct (text_eqb_spec key (chars "environmentVariables")) as [->|?].
      { destruct (entry_optional _ _ _ _ _ v Hn X6 H6 Hi) as (a & Ha). rewrite Ha. cbn [obind]. eauto. }
      eauto. }
    destruct R as (x1 & Hx). rewrite Hx. f_equal. destruct (FW x1 Hx) as (G1 & G2 & G3 & G4 & G5 & G6).
    pose proof (optional_once _ _ _ _ _ Hn (exact_once _ _ _ _ X1) G1 H1) as U1.
    pose proof (optional_once _ _ _ _ _ Hn (exact_once _ _ _ _ X2) G2 H2) as U2.
    pose proof (optional_once _ _ _ _ _ Hn (exact_once _ _ _ _ X3) G3 H3) as U3.
    pose proof (optional_once _ _ _ _ _ Hn (exact_once _ _ _ _ X4) G4 H4) as U4.
    pose proof (optional_once _ _ _ _ _ Hn (exact_once _ _ _ _ X5) G5 H5) as U5.
    pose proof (optional_once _ _ _ _ _ Hn (exact_once _ _ _ _ X6) G6 H6) as U6.
    clear -U1 U2 U3 U4 U5 U6. destruct x0, x1. cbn in *. subst. reflexivity. }
  split; [apply FW|apply BW].
Qed.
Lemma handler_ok m z : one_each (YMap m) -> (y_handler F k m = Ok z <-> is_handler F k m z).
Proof.
  intros Hm. pose proof (one_each_keys m Hm) as Hn.
  assert (S1 : sets (handler_entry F k) (ha_name F) (chars "handlerName") (fun v => omap Some (y_text k v))) by sets_tac (@handler_entry).
  assert (X1 : exact_on m (chars "handlerName") (y_text k) (is_text k)) by exact (exact_text k m _).
  assert (S2 : sets (handler_entry F k) (ha_location F) (chars "codeLocation") (fun v => omap Some (y_text k v))) by sets_tac (@handler_entry).
  assert (X2 : exact_on m (chars "codeLocation") (y_text k) (is_text k)) by exact (exact_text k m _).
  assert (S3 : sets (handler_entry F k) (ha_handler F) (chars "handler") (y_text k)) by sets_tac (@handler_entry).
  assert (X3 : exact_on m (chars "handler") (y_text k) (is_text k)) by exact (exact_text k m _).
  assert (S4 : sets (handler_entry F k) (ha_runtime F) (chars "runtime") (fun v => omap Some (y_text k v))) by sets_tac (@handler_entry).
  assert (X4 : exact_on m (chars "runtime") (y_text k) (is_text k)) by exact (exact_text k m _).
  assert (S5 : sets (handler_entry F k) (ha_memory F) (chars "memory") (fun v => omap Some (y_int F k v))) by sets_tac (@handler_entry).
  assert (X5 : exact_on m (chars "memory") (y_int F k) (is_int F k)) by exact (exact_int F k m _).
  assert (S6 : sets (handler_entry F k) (ha_timeout F) (chars "timeout") (fun v => omap Some (y_int F k v))) by sets_tac (@handler_entry).
  assert (X6 : exact_on m (chars "timeout") (y_int F k) (is_int F k)) by exact (exact_int F k m _).
  assert (S7 : sets (handler_entry F k) (ha_tracing F) (chars "tracingEnabled") (fun v => omap Some (y_bool F k v))) by sets_tac (@handler_entry).
  assert (X7 : exact_on m (chars "tracingEnabled") (y_bool F k) (is_bool F k)) by exact (exact_bool F k m _).
  assert (S8 : sets (handler_entry F k) (ha_env F) (chars "environmentVariables") (fun v => omap Some (y_mapping (y_strmap k) v))) by sets_tac (@handler_entry).
  assert (X8 : exact_on m (chars "environmentVariables") (y_mapping (y_strmap k)) (is_mapping (is_strmap k))) by exact (exact_strmap m _).
  assert (FW : forall x, foldo (handler_entry F k) (empty_handler F) m = Ok x -> optional m (chars "handlerName") (is_text k) (ha_name F x) /\ optional m (chars "codeLocation") (is_text k) (ha_location F x) /\ defaults m (chars "handler") (is_text k) [] (ha_handler F x) /\ optional m (chars "runtime") (is_text k) (ha_runtime F x) /\ optional m (chars "memory") (is_int F k) (ha_memory F x) /\ optional m (chars "timeout") (is_int F k) (ha_timeout F x) /\ optional m (chars "tracingEnabled") (is_bool F k) (ha_tracing F x) /\ optional m (chars "environmentVariables") (is_mapping (is_strmap k)) (ha_env F x)).
  { intros x0 Hf. refine (conj _ _). { exact (to_optional _ _ _ _ _ _ _ _ S1 Hn Hf eq_refl X1). }  refine (conj _ _). { exact (to_optional _ _ _ _ _ _ _ _ S2 Hn Hf eq_refl X2). }  refine (conj _ _). { exact (to_defaults _ _ _ _ _ _ _ _ S3 Hn Hf X3). }  refine (conj _ _). { exact (to_optional _ _ _ _ _ _ _ _ S4 Hn Hf eq_refl X4). }  refine (conj _ _). { exact (to_optional _ _ _ _ _ _ _ _ S5 Hn Hf eq_refl X5). }  refine (conj _ _). { exact (to_optional _ _ _ _ _ _ _ _ S6 Hn Hf eq_refl X6). }  refine (conj _ _). { exact (to_optional _ _ _ _ _ _ _ _ S7 Hn Hf eq_refl X7). }  exact (to_optional _ _ _ _ _ _ _ _ S8 Hn Hf eq_refl X8). }
  assert (BW : forall x, optional m (chars "handlerName") (is_text k) (ha_name F x) /\ optional m (chars "codeLocation") (is_text k) (ha_location F x) /\ defaults m (chars "handler") (is_text k) [] (ha_handler F x) /\ optional m (chars "runtime") (is_text k) (ha_runtime F x) /\ optional m (chars "memory") (is_int F k) (ha_memory F x) /\ optional m (chars "timeout") (is_int F k) (ha_timeout F x) /\ optional m (chars "tracingEnabled") (is_bool F k) (ha_tracing F x) /\ optional m (chars "environmentVariables") (is_mapping (is_strmap k)) (ha_env F x) -> foldo (handler_entry F k) (empty_handler F) m = Ok x).
  { intros x0 (H1 & H2 & H3 & H4 & H5 & H6 & H7 & H8).
    assert (R : exists x', foldo (handler_entry F k) (empty_handler F) m = Ok x').
    { apply fold_runs. intros [key|] v Hi y; unfold handler_entry; [|eauto].
      destruct (text_eqb_spec key (chars "handlerName")) as [->|?].
      { destruct (entry_optional _ _ _ _ _ v Hn X1 H1 Hi) as (a & Ha). rewrite Ha. cbn [obind]. eauto. }
      destruct (text_eqb_spec key (chars "codeLocation")) as [->|?].
      { destruct (entry_optional _ _ _ _ _ v Hn X2 H2 Hi) as (a & Ha). rewrite Ha. cbn [obind]. eauto. }
      destruct (text_eqb_spec key (chars "handler")) as [->|?].
      { pose proof (entry_default _ _ _ _ _ _ v Hn X3 H3 Hi) as Ha. rewrite Ha. cbn [obind]. eauto. }
      destruct (text_eqb_spec key (chars "runtime")) as [->|?].
      { destruct (entry_optional _ _ _ _ _ v Hn X4 H4 Hi) as (a & Ha). rewrite Ha. cbn [obind]. eauto. }
      destruct (text_eqb_spec key (chars "memory")) as [->|?].
      { destruct (entry_optional _ _ _ _ _ v Hn X5 H5 Hi) as (a & Ha). rewrite Ha. cbn [obind]. eauto. }
      destruct (text_eqb_spec key (chars "timeout")) as [->|?].
      { destruct (entry_optional _ _ _ _ _ v Hn X6 H6 Hi) as (a & Ha). rewrite Ha. cbn [obind]. eauto. }
      destruct (text_eqb_spec key (chars "tracingEnabled")) as [->|?].
      { destruct (entry_optional _ _ _ _ _ v Hn X7 H7 Hi) as (a & Ha). rewrite Ha. cbn [obind]. eauto. }
      destruct (text_eqb_spec key (chars "environmentVariables")) as [->|?].
      { destruct (entry_optional _ _ _ _ _ v Hn X8 H8 Hi) as (a & Ha). rewrite Ha. cbn [obind]. eauto. }
      eauto. }
    destruct R as (x1 & Hx). rewrite Hx. f_equal. destruct (FW x1 Hx) as (G1 & G2 & G3 & G4 & G5 & G6 & G7 & G8).
    pose proof (optional_once _ _ _ _ _ Hn (exact_once _ _ _ _ X1) G1 H1) as U1.
    pose proof (optional_once _ _ _ _ _ Hn (exact_once _ _ _ _ X2) G2 H2) as U2.
    pose proof (defaults_once _ _ _ _ _ _ Hn (exact_once _ _ _ _ X3) G3 H3) as U3.
    pose proof (optional_once _ _ _ _ _ Hn (exact_once _ _ _ _ X4) G4 H4) as U4.
    pose proof (optional_once _ _ _ _ _ Hn (exact_once _ _ _ _ X5) G5 H5) as U5.
    pose proof (optional_once _ _ _ _ _ Hn (exact_once _ _ _ _ X6) G6 H6) as U6.
    pose proof (optional_once _ _ _ _ _ Hn (exact_once _ _ _ _ X7) G7 H7) as U7.
    pose proof (optional_once _ _ _ _ _ Hn (exact_once _ _ _ _ X8) G8 H8) as U8.
    clear -U1 U2 U3 U4 U5 U6 U7 U8. destruct x0, x1. cbn in *. subst. reflexivity. }
  split; [apply FW|apply BW].
Qed.
Lemma schedule_ok m x : one_each (YMap m) -> (y_schedule k m = Ok x <-> required m (chars "schedule") (is_text k) x).
Proof. intros Hm. apply need_ok; [now apply one_each_keys|apply exact_text]. Qed.
Lemma options_ok m z : one_each (YMap m) -> (y_options F k m = Ok z <-> is_options F k m z).
Proof.
  intros Hm. pose proof (one_each_keys m Hm) as Hn.
  assert (S1 : sets (options_entry F k) (so_batch F) (chars "batchSize") (fun v => omap Some (y_int F k v))) by sets_tac (@options_entry).
  assert (X1 : exact_on m (chars "batchSize") (y_int F k) (is_int F k)) by exact (exact_int F k m _).
  assert (S2 : sets (options_entry F k) (so_partial F) (chars "partialFailures") (fun v => omap Some (y_bool F k v))) by sets_tac (@options_entry).
  assert (X2 : exact_on m (chars "partialFailures") (y_bool F k) (is_bool F k)) by exact (exact_bool F k m _).
  assert (S3 : sets (options_entry F k) (so_beginning F) (chars "startFromBeginning") (fun v => omap Some (y_bool F k v))) by sets_tac (@options_entry).
  assert (X3 : exact_on m (chars "startFromBeginning") (y_bool F k) (is_bool F k)) by exact (exact_bool F k m _).
  assert (FW : forall x, foldo (options_entry F k) (empty_options F) m = Ok x -> optional m (chars "batchSize") (is_int F k) (so_batch F x) /\ optional m (chars "partialFailures") (is_bool F k) (so_partial F x) /\ optional m (chars "startFromBeginning") (is_bool F k) (so_beginning F x)).
  { intros x0 Hf. refine (conj _ _). { exact (to_optional _ _ _ _ _ _ _ _ S1 Hn Hf eq_refl X1). }  refine (conj _ _). { exact (to_optional _ _ _ _ _ _ _ _ S2 Hn Hf eq_refl X2). }  exact (to_optional _ _ _ _ _ _ _ _ S3 Hn Hf eq_refl X3). }
  assert (BW : forall x, optional m (chars "batchSize") (is_int F k) (so_batch F x) /\ optional m (chars "partialFailures") (is_bool F k) (so_partial F x) /\ optional m (chars "startFromBeginning") (is_bool F k) (so_beginning F x) -> foldo (options_entry F k) (empty_options F) m = Ok x).
  { intros x0 (H1 & H2 & H3).
    assert (R : exists x', foldo (options_entry F k) (empty_options F) m = Ok x').
    { apply fold_runs. intros [key|] v Hi y; unfold options_entry; [|eauto].
      destruct (text_eqb_spec key (chars "batchSize")) as [->|?].
      { destruct (entry_optional _ _ _ _ _ v Hn X1 H1 Hi) as (a & Ha). rewrite Ha. cbn [obind]. eauto. }
      destruct (text_eqb_spec key (chars "partialFailures")) as [->|?].
      { destruct (entry_optional _ _ _ _ _ v Hn X2 H2 Hi) as (a & Ha). rewrite Ha. cbn [obind]. eauto. }
      destruct (text_eqb_spec key (chars "startFromBeginning")) as [->|?].
      { destruct (entry_optional _ _ _ _ _ v Hn X3 H3 Hi) as (a & Ha). rewrite Ha. cbn [obind]. eauto. }
      eauto. }
    destruct R as (x1 & Hx). rewrite Hx. f_equal. destruct (FW x1 Hx) as (G1 & G2 & G3).
    pose proof (optional_once _ _ _ _ _ Hn (exact_once _ _ _ _ X1) G1 H1) as U1.
    pose proof (optional_once _ _ _ _ _ Hn (exact_once _ _ _ _ X2) G2 H2) as U2.
    pose proof (optional_once _ _ _ _ _ Hn (exact_once _ _ _ _ X3) G3 H3) as U3.
    clear -U1 U2 U3. destruct x0, x1. cbn in *. subst. reflexivity. }
  split; [apply FW|apply BW].
Qed.
Lemma storage_ok m x : one_each (YMap m) -> (y_storage k m = Ok x <-> is_storage k m x).
Proof.
  intros Hm. pose proof (one_each_keys m Hm) as Hn. unfold y_storage, is_storage.
  pose proof (need_ok (chars "bucket") _ _ m Hn (exact_text k m _)) as N1. pose proof (may_ok (chars "events") _ _ m Hn (exact_ytexts m _)) as N2.
  rewrite obind_ok. split.
  - intros (b & Hb & H). apply obind_ok in H. destruct H as (e & He & H). injection H as <-. cbn [os_bucket os_events]. apply N1 in Hb. apply N2 in He.
    split; [exact Hb|]. destruct He as [(v & a & Hi & Ha & ->)|[Hl ->]]; [left; eauto|right; auto].
  - intros (Hb & He). exists (os_bucket x). split; [now apply N1|]. apply obind_ok.
    destruct He as [(v & Hi & Ha)|[Hl E]].
    + exists (Some (os_events x)). split; [apply N2; left; eauto|destruct x; reflexivity].
    + exists None. split; [apply N2; right; auto|]. destruct x; cbn in *; now subst.
Qed.
Lemma database_ok m x : one_each (YMap m) -> (y_database F k m = Ok x <-> is_stream F k (chars "dbStreamId") m x).
Proof.
  intros Hm. pose proof (one_each_keys m Hm) as Hn. unfold y_database, is_stream.
  pose proof (need_ok (chars "dbStreamId") _ _ m Hn (exact_text k m _)) as N1. rewrite obind_ok. split.
  - intros (b & Hb & H). apply obind_ok in H. destruct H as (e & He & H). injection H as <-. cbn [st_id st_options]. split; [now apply N1|now apply options_ok].
  - intros (Hb & He). exists (st_id F x). split; [now apply N1|]. apply obind_ok. exists (st_options F x). split; [now apply options_ok|destruct x; reflexivity].
Qed.
Lemma data_ok m x : one_each (YMap m) -> (y_data F k m = Ok x <-> is_stream F k (chars "dataStreamId") m x).
Proof.
  intros Hm. pose proof (one_each_keys m Hm) as Hn. unfold y_data, is_stream.
  pose proof (need_ok (chars "dataStreamId") _ _ m Hn (exact_text k m _)) as N1. rewrite obind_ok. split.
  - intros (b & Hb & H). apply obind_ok in H. destruct H as (e & He & H). injection H as <-. cbn [st_id st_options]. split; [now apply N1|now apply options_ok].
  - intros (Hb & He). exists (st_id F x). split; [now apply N1|]. apply obind_ok. exists (st_options F x). split; [now apply options_ok|destruct x; reflexivity].
Qed.
Definition source_of (ty : event_type) (c : list (option text * yaml)) (s : event_source F) : Prop :=
  match ty with
  | ObjectStorage => exists x, is_storage k c x /\ s = FromStorage F x
  | DatabaseStream => exists x, is_stream F k (chars "dbStreamId") c x /\ s = FromDatabase F x
  | DataStream => exists x, is_stream F k (chars "dataStreamId") c x /\ s = FromData F x
  end.
Lemma event_source_ok ty m s : one_each (YMap m) -> (y_event_source F k ty m = Ok s <-> source_of ty m s).
Proof.
  intros Hm. destruct ty; cbn [y_event_source source_of]; rewrite omap_ok; split; intros (x & Hx & ->); exists x; (split; [|reflexivity]).
  all: first [now apply storage_ok|now apply database_ok|now apply data_ok].
Qed.
Lemma event_ok m x : one_each (YMap m) -> (y_event F k m = Ok x <-> is_event F k m x).
Proof.
  intros Hm. pose proof (one_each_keys m Hm) as Hn. unfold y_event, is_event.
  pose proof (need_ok (chars "sourceType") _ _ m Hn (fun v _ => event_type_ok v)) as N1.
  pose proof (fun ty => need_ok (chars "sourceConfiguration") _ _ m Hn (exact_map _ _ m _ Hm (fun m' H a => event_source_ok ty m' a H))) as N2.
  rewrite obind_ok. split.
  - intros (ty & Ht & H). apply obind_ok in H. destruct H as (s & Hs & H). injection H as <-. cbn [fst snd]. split; [now apply N1|now apply (N2 ty)].
  - destruct x as [ty s]. cbn [fst snd]. intros (Ht & Hs). exists ty. split; [now apply N1|]. apply obind_ok. exists s. split; [now apply (N2 ty)|reflexivity].
Qed.
Lemma consumer_ok m z : one_each (YMap m) -> (y_consumer F k m = Ok z <-> is_consumer F k m z).
Proof.
  intros Hm. pose proof (one_each_keys m Hm) as Hn.
  assert (S1 : sets (consumer_entry F k) (co_source F) (chars "sourceId") (fun v => omap Some (y_text k v))) by sets_tac (@consumer_entry).
  assert (X1 : exact_on m (chars "sourceId") (y_text k) (is_text k)) by exact (exact_text k m _).
  assert (S2 : sets (consumer_entry F k) (co_batch F) (chars "batchSize") (fun v => omap Some (y_int F k v))) by sets_tac (@consumer_entry).
  assert (X2 : exact_on m (chars "batchSize") (y_int F k) (is_int F k)) by exact (exact_int F k m _).
  assert (S3 : sets (consumer_entry F k) (co_visibility F) (chars "visibilityTimeout") (fun v => omap Some (y_int F k v))) by sets_tac (@consumer_entry).
  assert (X3 : exact_on m (chars "visibilityTimeout") (y_int F k) (is_int F k)) by exact (exact_int F k m _).
  assert (S4 : sets (consumer_entry F k) (co_wait F) (chars "waitTimeSeconds") (fun v => omap Some (y_int F k v))) by sets_tac (@consumer_entry).
  assert (X4 : exact_on m (chars "waitTimeSeconds") (y_int F k) (is_int F k)) by exact (exact_int F k m _).
  assert (S5 : sets (consumer_entry F k) (co_partial F) (chars "partialFailures") (fun v => omap Some (y_bool F k v))) by sets_tac (@consumer_entry).
  assert (X5 : exact_on m (chars "partialFailures") (y_bool F k) (is_bool F k)) by exact (exact_bool F k m _).
  assert (S6 : sets (consumer_entry F k) (co_routing F) (chars "routingKey") (fun v => omap Some (y_text k v))) by sets_tac (@consumer_entry).
  assert (X6 : exact_on m (chars "routingKey") (y_text k) (is_text k)) by exact (exact_text k m _).
  assert (S7 : sets (consumer_entry F k) (co_events F) (chars "externalEvents") (fun v => omap Some (y_mapping (y_named (y_event F k)) v))) by sets_tac (@consumer_entry).
  assert (X7 : exact_on m (chars "externalEvents") (y_mapping (y_named (y_event F k))) (is_mapping (are_named (is_event F k)))) by exact (exact_named _ _ m _ Hm (fun m' H a => event_ok m' a H)).
  assert (FW : forall x, foldo (consumer_entry F k) (empty_consumer F) m = Ok x -> optional m (chars "sourceId") (is_text k) (co_source F x) /\ optional m (chars "batchSize") (is_int F k) (co_batch F x) /\ optional m (chars "visibilityTimeout") (is_int F k) (co_visibility F x) /\ optional m (chars "waitTimeSeconds") (is_int F k) (co_wait F x) /\ optional m (chars "partialFailures") (is_bool F k) (co_partial F x) /\ optional m (chars "routingKey") (is_text k) (co_routing F x) /\ optional m (chars "externalEvents") (is_mapping (are_named (is_event F k))) (co_events F x)).
  { intros x0 Hf. refine (conj _ _). { exact (to_optional _ _ _ _ _ _ _ _ S1 Hn Hf eq_refl X1). }  refine (conj _ _). { exact (to_optional _ _ _ _ _ _ _ _ S2 Hn Hf eq_refl X2). }  refine (conj _ _). { exact (to_optional _ _ _ _ _ _ _ _ S3 Hn Hf eq_refl X3). }  refine (conj _ _). { exact (to_optional _ _ _ _ _ _ _ _ S4 Hn Hf eq_refl X4). }  refine (conj _ _). { exact (to_optional _ _ _ _ _ _ _ _ S5 Hn Hf eq_refl X5). }  refine (conj _ _). { exact (to_optional _ _ _ _ _ _ _ _ S6 Hn Hf eq_refl X6). }  exact (to_optional _ _ _ _ _ _ _ _ S7 Hn Hf eq_refl X7). }
  assert (BW : forall x, optional m (chars "sourceId") (is_text k) (co_source F x) /\ optional m (chars "batchSize") (is_int F k) (co_batch F x) /\ optional m (chars "visibilityTimeout") (is_int F k) (co_visibility F x) /\ optional m (chars "waitTimeSeconds") (is_int F k) (co_wait F x) /\ optional m (chars "partialFailures") (is_bool F k) (co_partial F x) /\ optional m (chars "routingKey") (is_text k) (co_routing F x) /\ optional m (chars "externalEvents") (is_mapping (are_named (is_event F k))) (co_events F x) -> foldo (consumer_entry F k) (empty_consumer F) m = Ok x).
  { intros x0 (H1 & H2 & H3 & H4 & H5 & H6 & H7).
    assert (R : exists x', foldo (consumer_entry F k) (empty_consumer F) m = Ok x').
    { apply fold_runs. intros [key|] v Hi y; unfold consumer_entry; [|eauto].
      destruct (text_eqb_spec key (chars "sourceId")) as [->|?].
      { destruct (entry_optional _ _ _ _ _ v Hn X1 H1 Hi) as (a & Ha). rewrite Ha. cbn [obind]. eauto. }
      destruct (text_eqb_spec key (chars "batchSize")) as [->|?].
      { destruct (entry_optional _ _ _ _ _ v Hn X2 H2 Hi) as (a & Ha). rewrite Ha. cbn [obind]. eauto. }
      destruct (text_eqb_spec key (chars "visibilityTimeout")) as [->|?].
      { destruct (entry_optional _ _ _ _ _ v Hn X3 H3 Hi) as (a & Ha). rewrite Ha. cbn [obind]. eauto. }
      destruct (text_eqb_spec key (chars "waitTimeSeconds")) as [->|?].
      { destruct (entry_optional _ _ _ _ _ v Hn X4 H4 Hi) as (a & Ha). rewrite Ha. cbn [obind]. eauto. }
      destruct (text_eqb_spec key (chars "partialFailures")) as [->|?].
      { destruct (entry_optional _ _ _ _ _ v Hn X5 H5 Hi) as (a & Ha). rewrite Ha. cbn [obind]. eauto. }
      destruct (text_eqb_spec key (chars "routingKey")) as [->|?].
      { destruct (entry_optional _ _ _ _ _ v Hn X6 H6 Hi) as (a & Ha). rewrite Ha. cbn [obind]. eauto. }
      destruct (text_eqb_spec key (chars "externalEvents")) as [->|?].
      { destruct (entry_optional _ _ _ _ _ v Hn X7 H7 Hi) as (a & Ha). rewrite Ha. cbn [obind]. eauto. }
      eauto. }
    destruct R as (x1 & Hx). rewrite Hx. f_equal. destruct (FW x1 Hx) as (G1 & G2 & G3 & G4 & G5 & G6 & G7).
    pose proof (optional_once _ _ _ _ _ Hn (exact_once _ _ _ _ X1) G1 H1) as U1.
    pose proof (optional_once _ _ _ _ _ Hn (exact_once _ _ _ _ X2) G2 H2) as U2.
    pose proof (optional_once _ _ _ _ _ Hn (exact_once _ _ _ _ X3) G3 H3) as U3.
    pose proof (optional_once _ _ _ _ _ Hn (exact_once _ _ _ _ X4) G4 H4) as U4.
    pose proof (optional_once _ _ _ _ _ Hn (exact_once _ _ _ _ X5) G5 H5) as U5.
    pose proof (optional_once _ _ _ _ _ Hn (exact_once _ _ _ _ X6) G6 H6) as U6.
    pose proof (optional_once _ _ _ _ _ Hn (exact_once _ _ _ _ X7) G7 H7) as U7.
    clear -U1 U2 U3 U4 U5 U6 U7. destruct x0, x1. cbn in *. subst. reflexivity. }
  split; [apply FW|apply BW].
Qed.
Lemma cors_ok m z : one_each (YMap m) -> (y_cors F k m = Ok z <-> is_cors F k m z).
Proof.
  intros Hm. pose proof (one_each_keys m Hm) as Hn.
  assert (S1 : sets (cors_entry F k) (cr_credentials F) (chars "allowCredentials") (fun v => omap Some (y_bool F k v))) by sets_tac (@cors_entry).
  assert (X1 : exact_on m (chars "allowCredentials") (y_bool F k) (is_bool F k)) by exact (exact_bool F k m _).
  assert (S2 : sets (cors_entry F k) (cr_origins F) (chars "allowOrigins") (fun v => omap Some (y_texts k v))) by sets_tac (@cors_entry).
  assert (X2 : exact_on m (chars "allowOrigins") (y_texts k) (is_texts k)) by exact (exact_ytexts m _).
  assert (S3 : sets (cors_entry F k) (cr_methods F) (chars "allowMethods") (fun v => omap Some (y_texts k v))) by sets_tac (@cors_entry).
  assert (X3 : exact_on m (chars "allowMethods") (y_texts k) (is_texts k)) by exact (exact_ytexts m _).
  assert (S4 : sets (cors_entry F k) (cr_headers F) (chars "allowHeaders") (fun v => omap Some (y_texts k v))) by sets_tac (@cors_entry).
  assert (X4 : exact_on m (chars "allowHeaders") (y_texts k) (is_texts k)) by exact (exact_ytexts m _).
  assert (S5 : sets (cors_entry F k) (cr_expose F) (chars "exposeHeaders") (fun v => omap Some (y_texts k v))) by sets_tac (@cors_entry).
  assert (X5 : exact_on m (chars "exposeHeaders") (y_texts k) (is_texts k)) by exact (exact_ytexts m _).
  assert (S6 : sets (cors_entry F k) (cr_age F) (chars "maxAge") (fun v => omap Some (y_int F k v))) by sets_tac (@cors_entry).
  assert (X6 : exact_on m (chars "maxAge") (y_int F k) (is_int F k)) by exact (exact_int F k m _).
  assert (FW : forall x, foldo (cors_entry F k) (empty_cors F) m = Ok x -> optional m (chars "allowCredentials") (is_bool F k) (cr_credentials F x) /\ optional m (chars "allowOrigins") (is_texts k) (cr_origins F x) /\ optional m (chars "allowMethods") (is_texts k) (cr_methods F x) /\ optional m (chars "allowHeaders") (is_texts k) (cr_headers F x) /\ optional m (chars "exposeHeaders") (is_texts k) (cr_expose F x) /\ optional m (chars "maxAge") (is_int F k) (cr_age F x)).
  { intros x0 Hf. refine (conj _ _). { exact (to_optional _ _ _ _ _ _ _ _ S1 Hn Hf eq_refl X1). }  refine (conj _ _). { exact (to_optional _ _ _ _ _ _ _ _ S2 Hn Hf eq_refl X2). }  refine (conj _ _). { exact (to_optional _ _ _ _ _ _ _ _ S3 Hn Hf eq_refl X3). }  refine (conj _ _). { exact (to_optional _ _ _ _ _ _ _ _ S4 Hn Hf eq_refl X4). }  refine (conj _ _). { exact (to_optional _ _ _ _ _ _ _ _ S5 Hn Hf eq_refl X5). }  exact (to_optional _ _ _ _ _ _ _ _ S6 Hn Hf eq_refl X6). }
  assert (BW : forall x, optional m (chars "allowCredentials") (is_bool F k) (cr_credentials F x) /\ optional m (chars "allowOrigins") (is_texts k) (cr_origins F x) /\ optional m (chars "allowMethods") (is_texts k) (cr_methods F x) /\ optional m (chars "allowHeaders") (is_texts k) (cr_headers F x) /\ optional m (chars "exposeHeaders") (is_texts k) (cr_expose F x) /\ optional m (chars "maxAge") (is_int F k) (cr_age F x) -> foldo (cors_entry F k) (empty_cors F) m = Ok x).
  { intros x0 (H1 & H2 & H3 & H4 & H5 & H6).
    assert (R : exists x', foldo (cors_entry F k) (empty_cors F) m = Ok x').
    { apply fold_runs. intros [key|] v Hi y; unfold cors_entry; [|eauto].
      destruct (text_eqb_spec key (chars "allowCredentials")) as [->|?].
      { destruct (entry_optional _ _ _ _ _ v Hn X1 H1 Hi) as (a & Ha). rewrite Ha. cbn [obind]. eauto. }
      destruct (text_eqb_spec key (chars "allowOrigins")) as [->|?].
      { destruct (entry_optional _ _ _ _ _ v Hn X2 H2 Hi) as (a & Ha). rewrite Ha. cbn [obind]. eauto. }
      destruct (text_eqb_spec key (chars "allowMethods")) as [->|?].
      { destruct (entry_optional _ _ _ _ _ v Hn X3 H3 Hi) as (a & Ha). rewrite Ha. cbn [obind]. eauto. }
      destruct (text_eqb_spec key (chars "allowHeaders")) as [->|?].
      { destruct (entry_optional _ _ _ _ _ v Hn X4 H4 Hi) as (a & Ha). rewrite Ha. cbn [obind]. eauto. }
      destruct (text_eqb_spec key (chars "exposeHeaders")) as [->|?].
      { destruct (entry_optional _ _ _ _ _ v Hn X5 H5 Hi) as (a & Ha). rewrite Ha. cbn [obind]. eauto. }
      destruct (text_eqb_spec key (chars "maxAge")) as [->|?].
      { destruct (entry_optional _ _ _ _ _ v Hn X6 H6 Hi) as (a & Ha). rewrite Ha. cbn [obind]. eauto. }
      eauto. }
    destruct R as (x1 & Hx). rewrite Hx. f_equal. destruct (FW x1 Hx) as (G1 & G2 & G3 & G4 & G5 & G6).
    pose proof (optional_once _ _ _ _ _ Hn (exact_once _ _ _ _ X1) G1 H1) as U1.
    pose proof (optional_once _ _ _ _ _ Hn (exact_once _ _ _ _ X2) G2 H2) as U2.
    pose proof (optional_once _ _ _ _ _ Hn (exact_once _ _ _ _ X3) G3 H3) as U3.
    pose proof (optional_once _ _ _ _ _ Hn (exact_once _ _ _ _ X4) G4 H4) as U4.
    pose proof (optional_once _ _ _ _ _ Hn (exact_once _ _ _ _ X5) G5 H5) as U5.
    pose proof (optional_once _ _ _ _ _ Hn (exact_once _ _ _ _ X6) G6 H6) as U6.
    clear -U1 U2 U3 U4 U5 U6. destruct x0, x1. cbn in *. subst. reflexivity. }
  split; [apply FW|apply BW].
Qed.
Lemma cors_choice_ok v : one_each v -> forall c, y_cors_choice F k v = Ok c <-> is_cors_choice F k v c.
Proof.
  intros Hv c. unfold is_cors_choice. destruct v as [t|z|t|b| |l|m]; cbn [y_cors_choice];
    try (split; [discriminate|intros [(ps & (u & E & _) & _)|(m' & x & E & _)]; discriminate]).
  - rewrite omap_ok. split.
    + intros (ps & Hp & ->). left. exists ps. split; [|reflexivity]. exists t. split; [reflexivity|now apply subs_ok].
    + intros [(ps & (u & [= <-] & Hp) & ->)|(m' & x & E & _)]; [|discriminate]. exists ps. split; [now apply subs_ok|reflexivity].
  - rewrite omap_ok. split.
    + intros (x & Hx & ->). right. exists m, x. split; [reflexivity|]. split; [now apply cors_ok|reflexivity].
    + intros [(ps & (u & E & _) & _)|(m' & x & [= <-] & Hx & ->)]; [discriminate|]. exists x. split; [now apply cors_ok|reflexivity].
Qed.
Lemma base_ok m z : one_each (YMap m) -> (y_base F k m = Ok z <-> is_base F k m z).
Proof.
  intros Hm. pose proof (one_each_keys m Hm) as Hn.
  assert (S1 : sets (base_entry F k) (bp_protocol F) (chars "protocol") (y_plain_protocol F)) by sets_tac (@base_entry).
  assert (X1 : exact_on m (chars "protocol") (y_plain_protocol F) (is_plain_protocol F)) by exact ((fun v _ => plain_protocol_ok v)).
  assert (S2 : sets (base_entry F k) (bp_path F) (chars "basePath") (y_text k)) by sets_tac (@base_entry).
  assert (X2 : exact_on m (chars "basePath") (y_text k) (is_text k)) by exact (exact_text k m _).
  assert (FW : forall x, foldo (base_entry F k) (empty_base F) m = Ok x -> defaults m (chars "protocol") (is_plain_protocol F) (NNull F) (bp_protocol F x) /\ defaults m (chars "basePath") (is_text k) [] (bp_path F x)).
  { intros x0 Hf. refine (conj _ _). { exact (to_defaults _ _ _ _ _ _ _ _ S1 Hn Hf X1). }  exact (to_defaults _ _ _ _ _ _ _ _ S2 Hn Hf X2). }
  assert (BW : forall x, defaults m (chars "protocol") (is_plain_protocol F) (NNull F) (bp_protocol F x) /\ defaults m (chars "basePath") (is_text k) [] (bp_path F x) -> foldo (base_entry F k) (empty_base F) m = Ok x).
  { intros x0 (H1 & H2).
    assert (R : exists x', foldo (base_entry F k) (empty_base F) m = Ok x').
    { apply fold_runs. intros [key|] v Hi y; unfold base_entry; [|eauto].
      destruct (text_eqb_spec key (chars "protocol")) as [->|?].
      { pose proof (entry_default _ _ _ _ _ _ v Hn X1 H1 Hi) as Ha. rewrite Ha. cbn [obind]. eauto. }
      destruct (text_eqb_spec key (chars "basePath")) as [->|?].
      { pose proof (entry_default _ _ _ _ _ _ v Hn X2 H2 Hi) as Ha. rewrite Ha. cbn [obind]. eauto. }
      eauto. }
    destruct R as (x1 & Hx). rewrite Hx. f_equal. destruct (FW x1 Hx) as (G1 & G2).
    pose proof (defaults_once _ _ _ _ _ _ Hn (exact_once _ _ _ _ X1) G1 H1) as U1.
    pose proof (defaults_once _ _ _ _ _ _ Hn (exact_once _ _ _ _ X2) G2 H2) as U2.
    clear -U1 U2. destruct x0, x1. cbn in *. subst. reflexivity. }
  split; [apply FW|apply BW].
Qed.
Lemma base_path_ok v : one_each v -> forall c, y_base_path F k v = Ok c <-> is_base_path F k v c.
Proof.
  intros Hv c. unfold is_base_path. destruct v as [t|z|t|b| |l|m]; cbn [y_base_path];
    try (split; [discriminate|intros [(ps & (u & E & _) & _)|(m' & x & E & _)]; discriminate]).
  - rewrite omap_ok. split.
    + intros (ps & Hp & ->). left. exists ps. split; [|reflexivity]. exists t. split; [reflexivity|now apply subs_ok].
    + intros [(ps & (u & [= <-] & Hp) & ->)|(m' & x & E & _)]; [|discriminate]. exists ps. split; [now apply subs_ok|reflexivity].
  - rewrite omap_ok. split.
    + intros (x & Hx & ->). right. exists m, x. split; [reflexivity|]. split; [now apply base_ok|reflexivity].
    + intros [(ps & (u & E & _) & _)|(m' & x & [= <-] & Hx & ->)]; [discriminate|]. exists x. split; [now apply base_ok|reflexivity].
Qed.
Lemma domain_ok m z : one_each (YMap m) -> (y_domain F k m = Ok z <-> is_domain F k m z).
Proof.
  intros Hm. pose proof (one_each_keys m Hm) as Hn.
  assert (S1 : sets (domain_entry F k) (dm_name F) (chars "domainName") (y_text k)) by sets_tac (@domain_entry).
  assert (X1 : exact_on m (chars "domainName") (y_text k) (is_text k)) by exact (exact_text k m _).
  assert (S2 : sets (domain_entry F k) (dm_paths F) (chars "basePaths") (y_seq (y_base_path F k))) by sets_tac (@domain_entry).
  assert (X2 : exact_on m (chars "basePaths") (y_seq (y_base_path F k)) (is_seq (is_base_path F k))) by exact (exact_seq _ _ m _ (fun l v Hl Hv => base_path_ok v (one_each_seq _ _ (one_each_map _ _ _ Hm Hl) Hv))).
  assert (S3 : sets (domain_entry F k) (dm_normalize F) (chars "normalizeBasePath") (fun v => omap Some (y_bool F k v))) by sets_tac (@domain_entry).
  assert (X3 : exact_on m (chars "normalizeBasePath") (y_bool F k) (is_bool F k)) by exact (exact_bool F k m _).
  assert (S4 : sets (domain_entry F k) (dm_certificate F) (chars "certificateId") (y_text k)) by sets_tac (@domain_entry).
  assert (X4 : exact_on m (chars "certificateId") (y_text k) (is_text k)) by exact (exact_text k m _).
  assert (S5 : sets (domain_entry F k) (dm_policy F) (chars "securityPolicy") (fun v => omap Some (y_text k v))) by sets_tac (@domain_entry).
  assert (X5 : exact_on m (chars "securityPolicy") (y_text k) (is_text k)) by exact (exact_text k m _).
  assert (FW : forall x, foldo (domain_entry F k) (empty_domain F) m = Ok x -> defaults m (chars "domainName") (is_text k) [] (dm_name F x) /\ defaults m (chars "basePaths") (is_seq (is_base_path F k)) [] (dm_paths F x) /\ optional m (chars "normalizeBasePath") (is_bool F k) (dm_normalize F x) /\ defaults m (chars "certificateId") (is_text k) [] (dm_certificate F x) /\ optional m (chars "securityPolicy") (is_text k) (dm_policy F x)).
  { intros x0 Hf. refine (conj _ _). { exact (to_defaults _ _ _ _ _ _ _ _ S1 Hn Hf X1). }  refine (conj _ _). { exact (to_defaults _ _ _ _ _ _ _ _ S2 Hn Hf X2). }  refine (conj _ _). { exact (to_optional _ _ _ _ _ _ _ _ S3 Hn Hf eq_refl X3). }  refine (conj _ _). { exact (to_defaults _ _ _ _ _ _ _ _ S4 Hn Hf X4). }  exact (to_optional _ _ _ _ _ _ _ _ S5 Hn Hf eq_refl X5). }
  assert (BW : forall x, defaults m (chars "domainName") (is_text k) [] (dm_name F x) /\ defaults m (chars "basePaths") (is_seq (is_base_path F k)) [] (dm_paths F x) /\ optional m (chars "normalizeBasePath") (is_bool F k) (dm_normalize F x) /\ defaults m (chars "certificateId") (is_text k) [] (dm_certificate F x) /\ optional m (chars "securityPolicy") (is_text k) (dm_policy F x) -> foldo (domain_entry F k) (empty_domain F) m = Ok x).
  { intros x0 (H1 & H2 & H3 & H4 & H5).
    assert (R : exists x', foldo (domain_entry F k) (empty_domain F) m = Ok x').
    { apply fold_runs. intros [key|] v Hi y; unfold domain_entry; [|eauto].
      destruct (text_eqb_spec key (chars "domainName")) as [->|?].
      { pose proof (entry_default _ _ _ _ _ _ v Hn X1 H1 Hi) as Ha. rewrite Ha. cbn [obind]. eauto. }
      destruct (text_eqb_spec key (chars "basePaths")) as [->|?].
      { pose proof (entry_default _ _ _ _ _ _ v Hn X2 H2 Hi) as Ha. rewrite Ha. cbn [obind]. eauto. }
      destruct (text_eqb_spec key (chars "normalizeBasePath")) as [->|?].
      { destruct (entry_optional _ _ _ _ _ v Hn X3 H3 Hi) as (a & Ha). rewrite Ha. cbn [obind]. eauto. }
      destruct (text_eqb_spec key (chars "certificateId")) as [->|?].
      { pose proof (entry_default _ _ _ _ _ _ v Hn X4 H4 Hi) as Ha. rewrite Ha. cbn [obind]. eauto. }
      destruct (text_eqb_spec key (chars "securityPolicy")) as [->|?].
      { destruct (entry_optional _ _ _ _ _ v Hn X5 H5 Hi) as (a & Ha). rewrite Ha. cbn [obind]. eauto. }
      eauto. }
    destruct R as (x1 & Hx). rewrite Hx. f_equal. destruct (FW x1 Hx) as (G1 & G2 & G3 & G4 & G5).
    pose proof (defaults_once _ _ _ _ _ _ Hn (exact_once _ _ _ _ X1) G1 H1) as U1.
    pose proof (defaults_once _ _ _ _ _ _ Hn (exact_once _ _ _ _ X2) G2 H2) as U2.
    pose proof (optional_once _ _ _ _ _ Hn (exact_once _ _ _ _ X3) G3 H3) as U3.
    pose proof (defaults_once _ _ _ _ _ _ Hn (exact_once _ _ _ _ X4) G4 H4) as U4.
    pose proof (optional_once _ _ _ _ _ Hn (exact_once _ _ _ _ X5) G5 H5) as U5.
    clear -U1 U2 U3 U4 U5. destruct x0, x1. cbn in *. subst. reflexivity. }
  unfold y_domain, is_domain. rewrite obind_ok. split.
  - intros (x0 & Hx & Hc). pose proof (FW x0 Hx) as (H1 & H2 & H3 & H4 & H5).
    destruct (parts_empty (dm_name F x0)) eqn:E1; [discriminate|]. destruct (dm_paths F x0) as [|p l] eqn:E2; [discriminate|]. destruct (parts_empty (dm_certificate F x0)) eqn:E3; [discriminate|]. injection Hc as <-. rewrite E2 in *.
    repeat (split; [assumption|]). split; [now apply nempty_ok|]. split; [discriminate|now apply nempty_ok].
  - intros (H1 & H2 & H3 & H4 & H5 & HC). exists z. split; [apply BW; repeat (split; [assumption|]); assumption|]. destruct HC as (C1 & C2 & C3). apply nempty_ok in C1. apply nempty_ok in C3. rewrite C1, C3. destruct (dm_paths F z); [now elim C2|reflexivity].
Qed.
Lemma source_ok m z : one_each (YMap m) -> (y_source F k m = Ok z <-> is_source F k m z).
Proof.
  intros Hm. pose proof (one_each_keys m Hm) as Hn.
  assert (S1 : sets (source_entry F k) (vs_protocol F) (chars "protocol") (y_plain_protocol F)) by sets_tac (@source_entry).
  assert (X1 : exact_on m (chars "protocol") (y_plain_protocol F) (is_plain_protocol F)) by exact ((fun v _ => plain_protocol_ok v)).
  assert (S2 : sets (source_entry F k) (vs_source F) (chars "source") (y_text k)) by sets_tac (@source_entry).
  assert (X2 : exact_on m (chars "source") (y_text k) (is_text k)) by exact (exact_text k m _).
  assert (FW : forall x, foldo (source_entry F k) (empty_source F) m = Ok x -> defaults m (chars "protocol") (is_plain_protocol F) (NNull F) (vs_protocol F x) /\ defaults m (chars "source") (is_text k) [] (vs_source F x)).
  { intros x0 Hf. refine (conj _ _). { exact (to_defaults _ _ _ _ _ _ _ _ S1 Hn Hf X1). }  exact (to_defaults _ _ _ _ _ _ _ _ S2 Hn Hf X2). }
  assert (BW : forall x, defaults m (chars "protocol") (is_plain_protocol F) (NNull F) (vs_protocol F x) /\ defaults m (chars "source") (is_text k) [] (vs_source F x) -> foldo (source_entry F k) (empty_source F) m = Ok x).
  { intros x0 (H1 & H2).
    assert (R : exists x', foldo (source_entry F k) (empty_source F) m = Ok x').
    { apply fold_runs. intros [key|] v Hi y; unfold source_entry; [|eauto].
      destruct (text_eqb_spec key (chars "protocol")) as [->|?].
      { pose proof (entry_default _ _ _ _ _ _ v Hn X1 H1 Hi) as Ha. rewrite Ha. cbn [obind]. eauto. }
      destruct (text_eqb_spec key (chars "source")) as [->|?].
      { pose proof (entry_default _ _ _ _ _ _ v Hn X2 H2 Hi) as Ha. rewrite Ha. cbn [obind]. eauto. }
      eauto. }
    destruct R as (x1 & Hx). rewrite Hx. f_equal. destruct (FW x1 Hx) as (G1 & G2).
    pose proof (defaults_once _ _ _ _ _ _ Hn (exact_once _ _ _ _ X1) G1 H1) as U1.
    pose proof (defaults_once _ _ _ _ _ _ Hn (exact_once _ _ _ _ X2) G2 H2) as U2.
    clear -U1 U2. destruct x0, x1. cbn in *. subst. reflexivity. }
  split; [apply FW|apply BW].
Qed.
Lemma value_source_ok v : one_each v -> forall c, y_value_source F k v = Ok c <-> is_value_source F k v c.
Proof.
  intros Hv c. unfold is_value_source. destruct v as [t|z|t|b| |l|m]; cbn [y_value_source];
    try (split; [discriminate|intros [(ps & (u & E & _) & _)|(m' & x & E & _)]; discriminate]).
  - rewrite omap_ok. split.
    + intros (ps & Hp & ->). left. exists ps. split; [|reflexivity]. exists t. split; [reflexivity|now apply subs_ok].
    + intros [(ps & (u & [= <-] & Hp) & ->)|(m' & x & E & _)]; [|discriminate]. exists ps. split; [now apply subs_ok|reflexivity].
  - rewrite omap_ok. split.
    + intros (x & Hx & ->). right. exists m, x. split; [reflexivity|]. split; [now apply source_ok|reflexivity].
    + intros [(ps & (u & E & _) & _)|(m' & x & [= <-] & Hx & ->)]; [discriminate|]. exists x. split; [now apply source_ok|reflexivity].
Qed.
Lemma guard_ok m z : one_each (YMap m) -> (y_guard F k m = Ok z <-> is_guard F k m z).
Proof.
  intros Hm. pose proof (one_each_keys m Hm) as Hn.
  assert (S1 : sets (guard_entry F k) (gd_type F) (chars "type") (y_guard_type)) by sets_tac (@guard_entry).
  assert (X1 : exact_on m (chars "type") (y_guard_type) (is_guard_type)) by exact ((fun v _ => guard_type_ok v)).
  assert (S2 : sets (guard_entry F k) (gd_issuer F) (chars "issuer") (fun v => omap Some (y_text k v))) by sets_tac (@guard_entry).
  assert (X2 : exact_on m (chars "issuer") (y_text k) (is_text k)) by exact (exact_text k m _).
  assert (S3 : sets (guard_entry F k) (gd_token F) (chars "tokenSource") (fun v => omap Some (y_value_source F k v))) by sets_tac (@guard_entry).
  assert (X3 : exact_on m (chars "tokenSource") (y_value_source F k) (is_value_source F k)) by exact ((fun v Hv => value_source_ok v (one_each_map _ _ _ Hm Hv))).
  assert (S4 : sets (guard_entry F k) (gd_audience F) (chars "audience") (fun v => omap Some (y_texts k v))) by sets_tac (@guard_entry).
  assert (X4 : exact_on m (chars "audience") (y_texts k) (is_texts k)) by exact (exact_ytexts m _).
  assert (FW : forall x, foldo (guard_entry F k) (empty_guard F) m = Ok x -> defaults m (chars "type") is_guard_type [] (gd_type F x) /\ optional m (chars "issuer") (is_text k) (gd_issuer F x) /\ optional m (chars "tokenSource") (is_value_source F k) (gd_token F x) /\ optional m (chars "audience") (is_texts k) (gd_audience F x)).
  { intros x0 Hf. refine (conj _ _). { exact (to_defaults _ _ _ _ _ _ _ _ S1 Hn Hf X1). }  refine (conj _ _). { exact (to_optional _ _ _ _ _ _ _ _ S2 Hn Hf eq_refl X2). }  refine (conj _ _). { exact (to_optional _ _ _ _ _ _ _ _ S3 Hn Hf eq_refl X3). }  exact (to_optional _ _ _ _ _ _ _ _ S4 Hn Hf eq_refl X4). }
  assert (BW : forall x, defaults m (chars "type") is_guard_type [] (gd_type F x) /\ optional m (chars "issuer") (is_text k) (gd_issuer F x) /\ optional m (chars "tokenSource") (is_value_source F k) (gd_token F x) /\ optional m (chars "audience") (is_texts k) (gd_audience F x) -> foldo (guard_entry F k) (empty_guard F) m = Ok x).
  { intros x0 (H1 & H2 & H3 & H4).
    assert (R : exists x', foldo (guard_entry F k) (empty_guard F) m = Ok x').
    { apply fold_runs. intros [key|] v Hi y; unfold guard_entry; [|eauto].
      destruct (text_eqb_spec key (chars "type")) as [->|?].
      { pose proof (entry_default _ _ _ _ _ _ v Hn X1 H1 Hi) as Ha. rewrite Ha. cbn [obind]. eauto. }
      destruct (text_eqb_spec key (chars "issuer")) as [->|?].
      { destruct (entry_optional _ _ _ _ _ v Hn X2 H2 Hi) as (a & Ha). rewrite Ha. cbn [obind]. eauto. }
      destruct (text_eqb_spec key (chars "tokenSource")) as [->|?].
      { destruct (entry_optional _ _ _ _ _ v Hn X3 H3 Hi) as (a & Ha). rewrite Ha. cbn [obind]. eauto. }
      destruct (text_eqb_spec key (chars "audience")) as [->|?].
      { destruct (entry_optional _ _ _ _ _ v Hn X4 H4 Hi) as (a & Ha). rewrite Ha. cbn [obind]. eauto. }
      eauto. }
    destruct R as (x1 & Hx). rewrite Hx. f_equal. destruct (FW x1 Hx) as (G1 & G2 & G3 & G4).
    pose proof (defaults_once _ _ _ _ _ _ Hn (exact_once _ _ _ _ X1) G1 H1) as U1.
    pose proof (optional_once _ _ _ _ _ Hn (exact_once _ _ _ _ X2) G2 H2) as U2.
    pose proof (optional_once _ _ _ _ _ Hn (exact_once _ _ _ _ X3) G3 H3) as U3.
    pose proof (optional_once _ _ _ _ _ Hn (exact_once _ _ _ _ X4) G4 H4) as U4.
    clear -U1 U2 U3 U4. destruct x0, x1. cbn in *. subst. reflexivity. }
  unfold y_guard, is_guard. rewrite obind_ok. split.
  - intros (x0 & Hx & Hc). pose proof (FW x0 Hx) as (H1 & H2 & H3 & H4).
    destruct (parts_empty (gd_type F x0)) eqn:E1; [discriminate|]. injection Hc as <-.
    repeat (split; [assumption|]). now apply nempty_ok.
  - intros (H1 & H2 & H3 & H4 & HC). exists z. split; [apply BW; repeat (split; [assumption|]); assumption|]. apply nempty_ok in HC. now rewrite HC.
Qed.
Lemma auth_ok m x : one_each (YMap m) -> (y_auth F k m = Ok x <-> is_auth F k m x).
Proof.
  intros Hm. pose proof (one_each_keys m Hm) as Hn. unfold y_auth, is_auth.
  pose proof (need_ok (chars "guards") _ _ m Hn (exact_named _ _ m _ Hm (fun m' H a => guard_ok m' a H))) as N1.
  pose proof (may_ok (chars "defaultGuard") _ _ m Hn (exact_text k m _)) as N2.
  rewrite obind_ok. split.
  - intros (g & Hg & H). apply obind_ok in H. destruct H as (d & Hd & H). injection H as <-. cbn [au_guards au_default]. split; [now apply N1|now apply N2].
  - intros (Hg & Hd). exists (au_guards F x). split; [now apply N1|]. apply obind_ok. exists (au_default F x). split; [now apply N2|destruct x; reflexivity].
Qed.
Lemma api_ok m z : one_each (YMap m) -> (y_api F k m = Ok z <-> is_api F k m z).
Proof.
  intros Hm. pose proof (one_each_keys m Hm) as Hn.
  assert (S1 : sets (api_entry F k) (ap_protocols F) (chars "protocols") (y_seq (y_protocol F k))) by sets_tac (@api_entry).
  assert (X1 : exact_on m (chars "protocols") (y_seq (y_protocol F k)) (is_seq (is_protocol F k))) by exact (exact_seq _ _ m _ (fun l v Hl Hv n => protocol_ok v n (one_each_seq _ _ (one_each_map _ _ _ Hm Hl) Hv))).
  assert (S2 : sets_some (api_entry F k) (ap_cors F) (chars "cors") is_text_or_mapping (y_cors_choice F k)) by some_tac (@api_entry).
  assert (X2 : exact_on m (chars "cors") (y_cors_choice F k) (is_cors_choice F k)) by exact ((fun v Hv => cors_choice_ok v (one_each_map _ _ _ Hm Hv))).
  assert (S3 : sets (api_entry F k) (ap_domain F) (chars "domain") (fun v => omap Some (y_mapping (y_domain F k) v))) by sets_tac (@api_entry).
  assert (X3 : exact_on m (chars "domain") (y_mapping (y_domain F k)) (is_mapping (is_domain F k))) by exact (exact_map _ _ m _ Hm (fun m' H a => domain_ok m' a H)).
  assert (S4 : sets (api_entry F k) (ap_auth F) (chars "auth") (fun v => omap Some (y_mapping (y_auth F k) v))) by sets_tac (@api_entry).
  assert (X4 : exact_on m (chars "auth") (y_mapping (y_auth F k)) (is_mapping (is_auth F k))) by exact (exact_map _ _ m _ Hm (fun m' H a => auth_ok m' a H)).
  assert (S5 : sets (api_entry F k) (ap_tracing F) (chars "tracingEnabled") (fun v => omap Some (y_bool F k v))) by sets_tac (@api_entry).
  assert (X5 : exact_on m (chars "tracingEnabled") (y_bool F k) (is_bool F k)) by exact (exact_bool F k m _).
  assert (FW : forall x, foldo (api_entry F k) (empty_api F) m = Ok x -> defaults m (chars "protocols") (is_seq (is_protocol F k)) [] (ap_protocols F x) /\ lenient m (chars "cors") is_text_or_mapping (is_cors_choice F k) (ap_cors F x) /\ optional m (chars "domain") (is_mapping (is_domain F k)) (ap_domain F x) /\ optional m (chars "auth") (is_mapping (is_auth F k)) (ap_auth F x) /\ optional m (chars "tracingEnabled") (is_bool F k) (ap_tracing F x)).
  { intros x0 Hf. refine (conj _ _). { exact (to_defaults _ _ _ _ _ _ _ _ S1 Hn Hf X1). }  refine (conj _ _). { exact (to_lenient _ _ _ _ _ _ _ _ _ S2 Hn Hf eq_refl X2). }  refine (conj _ _). { exact (to_optional _ _ _ _ _ _ _ _ S3 Hn Hf eq_refl X3). }  refine (conj _ _). { exact (to_optional _ _ _ _ _ _ _ _ S4 Hn Hf eq_refl X4). }  exact (to_optional _ _ _ _ _ _ _ _ S5 Hn Hf eq_refl X5). }
  assert (BW : forall x, defaults m (chars "protocols") (is_seq (is_protocol F k)) [] (ap_protocols F x) /\ lenient m (chars "cors") is_text_or_mapping (is_cors_choice F k) (ap_cors F x) /\ optional m (chars "domain") (is_mapping (is_domain F k)) (ap_domain F x) /\ optional m (chars "auth") (is_mapping (is_auth F k)) (ap_auth F x) /\ optional m (chars "tracingEnabled") (is_bool F k) (ap_tracing F x) -> foldo (api_entry F k) (empty_api F) m = Ok x).
  { intros x0 (H1 & H2 & H3 & H4 & H5).
    assert (R : exists x', foldo (api_entry F k) (empty_api F) m = Ok x').
    { apply fold_runs. intros [key|] v Hi y; unfold api_entry; [|eauto].
      destruct (text_eqb_spec key (chars "protocols")) as [->|?].
      { pose proof (entry_default _ _ _ _ _ _ v Hn X1 H1 Hi) as Ha. rewrite Ha. cbn [obind]. eauto. }
      destruct (text_eqb_spec key (chars "cors")) as [->|?].
      { pose proof (entry_lenient _ _ _ _ _ _ v Hn X2 H2 Hi) as Ha. destruct v; try (eexists; reflexivity); destruct Ha as (a & Ha); try shape_ok; rewrite Ha; cbn [obind]; eauto. }
      destruct (text_eqb_spec key (chars "domain")) as [->|?].
      { destruct (entry_optional _ _ _ _ _ v Hn X3 H3 Hi) as (a & Ha). rewrite Ha. cbn [obind]. eauto. }
      destruct (text_eqb_spec key (chars "auth")) as [->|?].
      { destruct (entry_optional _ _ _ _ _ v Hn X4 H4 Hi) as (a & Ha). rewrite Ha. cbn [obind]. eauto. }
      destruct (text_eqb_spec key (chars "tracingEnabled")) as [->|?].
      { destruct (entry_optional _ _ _ _ _ v Hn X5 H5 Hi) as (a & Ha). rewrite Ha. cbn [obind]. eauto. }
      eauto. }
    destruct R as (x1 & Hx). rewrite Hx. f_equal. destruct (FW x1 Hx) as (G1 & G2 & G3 & G4 & G5).
    pose proof (defaults_once _ _ _ _ _ _ Hn (exact_once _ _ _ _ X1) G1 H1) as U1.
    pose proof (lenient_once _ _ _ _ _ _ Hn (exact_once _ _ _ _ X2) G2 H2) as U2.
    pose proof (optional_once _ _ _ _ _ Hn (exact_once _ _ _ _ X3) G3 H3) as U3.
    pose proof (optional_once _ _ _ _ _ Hn (exact_once _ _ _ _ X4) G4 H4) as U4.
    pose proof (optional_once _ _ _ _ _ Hn (exact_once _ _ _ _ X5) G5 H5) as U5.
    clear -U1 U2 U3 U4 U5. destruct x0, x1. cbn in *. subst. reflexivity. }
  unfold y_api, is_api. rewrite obind_ok. split.
  - intros (x0 & Hx & Hc). pose proof (FW x0 Hx) as (H1 & H2 & H3 & H4 & H5).
    destruct (ap_protocols F x0) as [|p l] eqn:E1; [discriminate|]. injection Hc as <-. rewrite E1 in *.
    repeat (split; [assumption|]). discriminate.
  - intros (H1 & H2 & H3 & H4 & H5 & HC). exists z. split; [apply BW; repeat (split; [assumption|]); assumption|]. destruct (ap_protocols F z); [now elim HC|reflexivity].
Qed.
Lemma config_ok m z : one_each (YMap m) -> (y_config k m = Ok z <-> is_config k m z).
Proof.
  intros Hm. pose proof (one_each_keys m Hm) as Hn.
  assert (S1 : sets (config_entry k) cf_name (chars "name") (fun v => omap Some (y_text k v))) by sets_tac (@config_entry).
  assert (X1 : exact_on m (chars "name") (y_text k) (is_text k)) by exact (exact_text k m _).
  assert (S2 : sets (config_entry k) cf_plaintext (chars "plaintext") (fun v => omap Some (y_texts k v))) by sets_tac (@config_entry).
  assert (X2 : exact_on m (chars "plaintext") (y_texts k) (is_texts k)) by exact (exact_ytexts m _).
  assert (FW : forall x, foldo (config_entry k) (empty_config) m = Ok x -> optional m (chars "name") (is_text k) (cf_name x) /\ optional m (chars "plaintext") (is_texts k) (cf_plaintext x)).
  { intros x0 Hf. refine (conj _ _). { exact (to_optional _ _ _ _ _ _ _ _ S1 Hn Hf eq_refl X1). }  exact (to_optional _ _ _ _ _ _ _ _ S2 Hn Hf eq_refl X2). }
  assert (BW : forall x, optional m (chars "name") (is_text k) (cf_name x) /\ optional m (chars "plaintext") (is_texts k) (cf_plaintext x) -> foldo (config_entry k) (empty_config) m = Ok x).
  { intros x0 (H1 & H2).
    assert (R : exists x', foldo (config_entry k) (empty_config) m = Ok x').
    { apply fold_runs. intros [key|] v Hi y; unfold config_entry; [|eauto].
      destruct (text_eqb_spec key (chars "name")) as [->|?].
      { destruct (entry_optional _ _ _ _ _ v Hn X1 H1 Hi) as (a & Ha). rewrite Ha. cbn [obind]. eauto. }
      destruct (text_eqb_spec key (chars "plaintext")) as [->|?].
      { destruct (entry_optional _ _ _ _ _ v Hn X2 H2 Hi) as (a & Ha). rewrite Ha. cbn [obind]. eauto. }
      eauto. }
    destruct R as (x1 & Hx). rewrite Hx. f_equal. destruct (FW x1 Hx) as (G1 & G2).
    pose proof (optional_once _ _ _ _ _ Hn (exact_once _ _ _ _ X1) G1 H1) as U1.
    pose proof (optional_once _ _ _ _ _ Hn (exact_once _ _ _ _ X2) G2 H2) as U2.
    clear -U1 U2. destruct x0, x1. cbn in *. subst. reflexivity. }
  split; [apply FW|apply BW].
Qed.
Lemma bucket_ok m z : one_each (YMap m) -> (y_bucket k m = Ok z <-> is_bucket k m z).
Proof.
  intros Hm. pose proof (one_each_keys m Hm) as Hn.
  assert (S1 : sets (bucket_entry k) bk_name (chars "name") (fun v => omap Some (y_text k v))) by sets_tac (@bucket_entry).
  assert (X1 : exact_on m (chars "name") (y_text k) (is_text k)) by exact (exact_text k m _).
  assert (FW : forall x, foldo (bucket_entry k) (empty_bucket) m = Ok x -> optional m (chars "name") (is_text k) (bk_name x)).
  { intros x0 Hf. exact (to_optional _ _ _ _ _ _ _ _ S1 Hn Hf eq_refl X1). }
  assert (BW : forall x, optional m (chars "name") (is_text k) (bk_name x) -> foldo (bucket_entry k) (empty_bucket) m = Ok x).
  { intros x0 H1.
    assert (R : exists x', foldo (bucket_entry k) (empty_bucket) m = Ok x').
    { apply fold_runs. intros [key|] v Hi y; unfold bucket_entry; [|eauto].
      destruct (text_eqb_spec key (chars "name")) as [->|?].
      { destruct (entry_optional _ _ _ _ _ v Hn X1 H1 Hi) as (a & Ha). rewrite Ha. cbn [obind]. eauto. }
      eauto. }
    destruct R as (x1 & Hx). rewrite Hx. f_equal. pose proof (FW x1 Hx) as G1.
    pose proof (optional_once _ _ _ _ _ Hn (exact_once _ _ _ _ X1) G1 H1) as U1.
    clear -U1. destruct x0, x1. cbn in *. subst. reflexivity. }
  split; [apply FW|apply BW].
Qed.
Lemma topic_ok m z : one_each (YMap m) -> (y_topic F k m = Ok z <-> is_topic F k m z).
Proof.
  intros Hm. pose proof (one_each_keys m Hm) as Hn.
  assert (S1 : sets (topic_entry F k) (tp_name F) (chars "name") (fun v => omap Some (y_text k v))) by sets_tac (@topic_entry).
  assert (X1 : exact_on m (chars "name") (y_text k) (is_text k)) by exact (exact_text k m _).
  assert (S2 : sets (topic_entry F k) (tp_fifo F) (chars "fifo") (fun v => omap Some (y_bool F k v))) by sets_tac (@topic_entry).
  assert (X2 : exact_on m (chars "fifo") (y_bool F k) (is_bool F k)) by exact (exact_bool F k m _).
  apply exact_some in X2.
  assert (FW : forall x, foldo (topic_entry F k) (empty_topic F) m = Ok x -> optional m (chars "name") (is_text k) (tp_name F x) /\ defaults m (chars "fifo") (fun v o => exists a, is_bool F k v a /\ o = Some a) (Some (NScalar F (SBool F false))) (tp_fifo F x)).
  { intros x0 Hf. refine (conj _ _). { exact (to_optional _ _ _ _ _ _ _ _ S1 Hn Hf eq_refl X1). }  exact (to_defaults _ _ _ _ _ _ _ _ S2 Hn Hf X2). }
  assert (BW : forall x, optional m (chars "name") (is_text k) (tp_name F x) /\ defaults m (chars "fifo") (fun v o => exists a, is_bool F k v a /\ o = Some a) (Some (NScalar F (SBool F false))) (tp_fifo F x) -> foldo (topic_entry F k) (empty_topic F) m = Ok x).
  { intros x0 (H1 & H2).
    assert (R : exists x', foldo (topic_entry F k) (empty_topic F) m = Ok x').
    { apply fold_runs. intros [key|] v Hi y; unfold topic_entry; [|eauto].
      destruct (text_eqb_spec key (chars "name")) as [->|?].
      { destruct (entry_optional _ _ _ _ _ v Hn X1 H1 Hi) as (a & Ha). rewrite Ha. cbn [obind]. eauto. }
      destruct (text_eqb_spec key (chars "fifo")) as [->|?].
      { pose proof (entry_default _ _ _ _ _ _ v Hn X2 H2 Hi) as Ha. apply omap_ok in Ha. destruct Ha as (a & Ha & _). rewrite Ha. cbn [obind]. eauto. }
      eauto. }
    destruct R as (x1 & Hx). rewrite Hx. f_equal. destruct (FW x1 Hx) as (G1 & G2).
    pose proof (optional_once _ _ _ _ _ Hn (exact_once _ _ _ _ X1) G1 H1) as U1.
    pose proof (defaults_once _ _ _ _ _ _ Hn (exact_once _ _ _ _ X2) G2 H2) as U2.
    clear -U1 U2. destruct x0, x1. cbn in *. subst. reflexivity. }
  split; [apply FW|apply BW].
Qed.
Lemma queue_ok m z : one_each (YMap m) -> (y_queue F k m = Ok z <-> is_queue F k m z).
Proof.
  intros Hm. pose proof (one_each_keys m Hm) as Hn.
  assert (S1 : sets (queue_entry F k) (qu_name F) (chars "name") (fun v => omap Some (y_text k v))) by sets_tac (@queue_entry).
  assert (X1 : exact_on m (chars "name") (y_text k) (is_text k)) by exact (exact_text k m _).
  assert (S2 : sets (queue_entry F k) (qu_fifo F) (chars "fifo") (fun v => omap Some (y_bool F k v))) by sets_tac (@queue_entry).
  assert (X2 : exact_on m (chars "fifo") (y_bool F k) (is_bool F k)) by exact (exact_bool F k m _).
  apply exact_some in X2.
  assert (S3 : sets (queue_entry F k) (qu_visibility F) (chars "visibilityTimeout") (fun v => omap Some (y_int F k v))) by sets_tac (@queue_entry).
  assert (X3 : exact_on m (chars "visibilityTimeout") (y_int F k) (is_int F k)) by exact (exact_int F k m _).
  assert (FW : forall x, foldo (queue_entry F k) (empty_queue F) m = Ok x -> optional m (chars "name") (is_text k) (qu_name F x) /\ defaults m (chars "fifo") (fun v o => exists a, is_bool F k v a /\ o = Some a) (Some (NScalar F (SBool F false))) (qu_fifo F x) /\ optional m (chars "visibilityTimeout") (is_int F k) (qu_visibility F x)).
  { intros x0 Hf. refine (conj _ _). { exact (to_optional _ _ _ _ _ _ _ _ S1 Hn Hf eq_refl X1). }  refine (conj _ _). { exact (to_defaults _ _ _ _ _ _ _ _ S2 Hn Hf X2). }  exact (to_optional _ _ _ _ _ _ _ _ S3 Hn Hf eq_refl X3). }
  assert (BW : forall x, optional m (chars "name") (is_text k) (qu_name F x) /\ defaults m (chars "fifo") (fun v o => exists a, is_bool F k v a /\ o = Some a) (Some (NScalar F (SBool F false))) (qu_fifo F x) /\ optional m (chars "visibilityTimeout") (is_int F k) (qu_visibility F x) -> foldo (queue_entry F k) (empty_queue F) m = Ok x).
  { intros x0 (H1 & H2 & H3).
    assert (R : exists x', foldo (queue_entry F k) (empty_queue F) m = Ok x').
    { apply fold_runs. intros [key|] v Hi y; unfold queue_entry; [|eauto].
      destruct (text_eqb_spec key (chars "name")) as [->|?].
      { destruct (entry_optional _ _ _ _ _ v Hn X1 H1 Hi) as (a & Ha). rewrite Ha. cbn [obind]. eauto. }
      destruct (text_eqb_spec key (chars "fifo")) as [->|?].
      { pose proof (entry_default _ _ _ _ _ _ v Hn X2 H2 Hi) as Ha. apply omap_ok in Ha. destruct Ha as (a & Ha & _). rewrite Ha. cbn [obind]. eauto. }
      destruct (text_eqb_spec key (chars "visibilityTimeout")) as [->|?].
      { destruct (entry_optional _ _ _ _ _ v Hn X3 H3 Hi) as (a & Ha). rewrite Ha. cbn [obind]. eauto. }
      eauto. }
    destruct R as (x1 & Hx). rewrite Hx. f_equal. destruct (FW x1 Hx) as (G1 & G2 & G3).
    pose proof (optional_once _ _ _ _ _ Hn (exact_once _ _ _ _ X1) G1 H1) as U1.
    pose proof (defaults_once _ _ _ _ _ _ Hn (exact_once _ _ _ _ X2) G2 H2) as U2.
    pose proof (optional_once _ _ _ _ _ Hn (exact_once _ _ _ _ X3) G3 H3) as U3.
    clear -U1 U2 U3. destruct x0, x1. cbn in *. subst. reflexivity. }
  split; [apply FW|apply BW].
Qed.
Lemma metadata_ok m z : one_each (YMap m) -> (y_metadata F parse_f64 k m = Ok z <-> is_metadata F parse_f64 k m z).
Proof.
  intros Hm. pose proof (one_each_keys m Hm) as Hn.
  assert (S1 : sets (metadata_entry F parse_f64 k) (me_name F) (chars "displayName") (y_text k)) by sets_tac (@metadata_entry).
  assert (X1 : exact_on m (chars "displayName") (y_text k) (is_text k)) by exact (exact_text k m _).
  assert (S2 : sets_some (metadata_entry F parse_f64 k) (me_annotations F) (chars "annotations") is_a_mapping (y_mapping (y_payload F parse_f64 k))) by some_tac (@metadata_entry).
  assert (X2 : exact_on m (chars "annotations") (y_mapping (y_payload F parse_f64 k)) (is_mapping (is_payload F parse_f64 k))) by exact ((fun v _ => mapping_ok _ _ v (fun m' _ => payload_ok F parse_f64 k m'))).
  assert (S3 : sets_some (metadata_entry F parse_f64 k) (me_labels F) (chars "labels") is_a_mapping (y_mapping y_labels)) by some_tac (@metadata_entry).
  assert (X3 : exact_on m (chars "labels") (y_mapping y_labels) (is_mapping are_labels)) by exact ((fun v _ => mapping_ok _ _ v (fun m' _ => labels_ok m'))).
  assert (FW : forall x, foldo (metadata_entry F parse_f64 k) (empty_metadata F) m = Ok x -> defaults m (chars "displayName") (is_text k) [] (me_name F x) /\ lenient m (chars "annotations") is_a_mapping (is_mapping (is_payload F parse_f64 k)) (me_annotations F x) /\ lenient m (chars "labels") is_a_mapping (is_mapping are_labels) (me_labels F x)).
  { intros x0 Hf. refine (conj _ _). { exact (to_defaults _ _ _ _ _ _ _ _ S1 Hn Hf X1). }  refine (conj _ _). { exact (to_lenient _ _ _ _ _ _ _ _ _ S2 Hn Hf eq_refl X2). }  exact (to_lenient _ _ _ _ _ _ _ _ _ S3 Hn Hf eq_refl X3). }
  assert (BW : forall x, defaults m (chars "displayName") (is_text k) [] (me_name F x) /\ lenient m (chars "annotations") is_a_mapping (is_mapping (is_payload F parse_f64 k)) (me_annotations F x) /\ lenient m (chars "labels") is_a_mapping (is_mapping are_labels) (me_labels F x) -> foldo (metadata_entry F parse_f64 k) (empty_metadata F) m = Ok x).
  { intros x0 (H1 & H2 & H3).
    assert (R : exists x', foldo (metadata_entry F parse_f64 k) (empty_metadata F) m = Ok x').
    { apply fold_runs. intros [key|] v Hi y; unfold metadata_entry; [|eauto].
      destruct (text_eqb_spec key (chars "displayName")) as [->|?].
      { pose proof (entry_default _ _ _ _ _ _ v Hn X1 H1 Hi) as Ha. rewrite Ha. cbn [obind]. eauto. }
      destruct (text_eqb_spec key (chars "annotations")) as [->|?].
      { pose proof (entry_lenient _ _ _ _ _ _ v Hn X2 H2 Hi) as Ha. destruct v; try (eexists; reflexivity); destruct Ha as (a & Ha); try shape_ok; rewrite Ha; cbn [obind]; eauto. }
      destruct (text_eqb_spec key (chars "labels")) as [->|?].
      { pose proof (entry_lenient _ _ _ _ _ _ v Hn X3 H3 Hi) as Ha. destruct v; try (eexists; reflexivity); destruct Ha as (a & Ha); try shape_ok; rewrite Ha; cbn [obind]; eauto. }
      eauto. }
    destruct R as (x1 & Hx). rewrite Hx. f_equal. destruct (FW x1 Hx) as (G1 & G2 & G3).
    pose proof (defaults_once _ _ _ _ _ _ Hn (exact_once _ _ _ _ X1) G1 H1) as U1.
    pose proof (lenient_once _ _ _ _ _ _ Hn (exact_once _ _ _ _ X2) G2 H2) as U2.
    pose proof (lenient_once _ _ _ _ _ _ Hn (exact_once _ _ _ _ X3) G3 H3) as U3.
    clear -U1 U2 U3. destruct x0, x1. cbn in *. subst. reflexivity. }
  unfold y_metadata, is_metadata. rewrite obind_ok. split.
  - intros (x0 & Hx & Hc). pose proof (FW x0 Hx) as (H1 & H2 & H3).
    destruct (parts_empty (me_name F x0)) eqn:E1; [discriminate|]. injection Hc as <-.
    repeat (split; [assumption|]). now apply nempty_ok.
  - intros (H1 & H2 & H3 & HC). exists z. split; [apply BW; repeat (split; [assumption|]); assumption|]. apply nempty_ok in HC. now rewrite HC.
Qed.
Lemma blueprint_metadata_ok m o : one_each (YMap m) -> (y_blueprint_metadata F k m = Ok o <-> is_blueprint_metadata F k m o).
Proof.
  intros Hm. pose proof (one_each_keys m Hm) as Hn. unfold y_blueprint_metadata, is_blueprint_metadata.
  assert (S1 : sets_some (blueprint_metadata_entry F k) (fun x => x) (chars "sharedHandlerConfig") is_a_mapping (y_mapping (y_shared F k))) by some_tac (@blueprint_metadata_entry).
  assert (X1 : exact_on m (chars "sharedHandlerConfig") (y_mapping (y_shared F k)) (is_mapping (is_shared F k))) by exact (exact_map _ _ m _ Hm (fun m' H a => shared_ok m' a H)).
  assert (FW : forall x, foldo (blueprint_metadata_entry F k) None m = Ok x -> lenient m (chars "sharedHandlerConfig") is_a_mapping (is_mapping (is_shared F k)) x).
  { intros x Hf. exact (to_lenient _ _ _ _ _ _ _ _ _ S1 Hn Hf eq_refl X1). }
  split; [apply FW|]. intros H1.
  assert (R : exists x', foldo (blueprint_metadata_entry F k) None m = Ok x').
  { apply fold_runs. intros [key|] v Hi y; unfold blueprint_metadata_entry; [|eauto]. destruct (text_eqb_spec key (chars "sharedHandlerConfig")) as [->|?]; [|eauto].
    pose proof (entry_lenient _ _ _ _ _ _ v Hn X1 H1 Hi) as Ha. destruct v; try (eexists; reflexivity). destruct Ha as (a & Ha); try shape_ok. cbn [y_mapping] in Ha. rewrite Ha. cbn [obind]. eauto. }
  destruct R as (x1 & Hx). rewrite Hx. f_equal. exact (lenient_once _ _ _ _ _ _ Hn (exact_once _ _ _ _ X1) (FW x1 Hx) H1).
Qed.
Lemma spec_ok ty m s : sane k -> one_each (YMap m) -> (y_spec F parse_f64 k ty m = Ok s <-> is_spec F parse_f64 k ty m s).
Proof.
  intros Hk Hm. destruct ty; cbn [y_spec is_spec]; rewrite omap_ok; split; intros (x & Hx & ->); exists x; (split; [|reflexivity]).
  - exact (proj1 (api_ok m x Hm) Hx).
  - exact (proj2 (api_ok m x Hm) Hx).
  - exact (proj1 (consumer_ok m x Hm) Hx).
  - exact (proj2 (consumer_ok m x Hm) Hx).
  - exact (proj1 (schedule_ok m x Hm) Hx).
  - exact (proj2 (schedule_ok m x Hm) Hx).
  - exact (proj1 (handler_ok m x Hm) Hx).
  - exact (proj2 (handler_ok m x Hm) Hx).
  - exact (proj1 (shared_ok m x Hm) Hx).
  - exact (proj2 (shared_ok m x Hm) Hx).
  - exact (proj1 (workflow_ok F parse_f64 k Hk m x Hm) Hx).
  - exact (proj2 (workflow_ok F parse_f64 k Hk m x Hm) Hx).
  - exact (proj1 (config_ok m x Hm) Hx).
  - exact (proj2 (config_ok m x Hm) Hx).
  - exact (proj1 (bucket_ok m x Hm) Hx).
  - exact (proj2 (bucket_ok m x Hm) Hx).
  - exact (proj1 (topic_ok m x Hm) Hx).
  - exact (proj2 (topic_ok m x Hm) Hx).
  - exact (proj1 (queue_ok m x Hm) Hx).
  - exact (proj2 (queue_ok m x Hm) Hx).
Qed.
End Params.
