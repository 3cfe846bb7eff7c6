From Verif Require Import Base Chars SubstModel SubstProofs SubstProps ResolveModel WfYamlModel WfYamlSpec.
Local Open Scope list_scope.

(** * Induction on documents *)
Section Ind.
Variable P : yaml -> Prop.
Hypothesis Hstep : forall v,
  (forall l u w, v = YSeq l -> In u l -> inside w u -> P w) ->
  (forall m key u w, v = YMap m -> In (key, u) m -> inside w u -> P w) -> P v.
Lemma yaml_deep_aux : forall v w, inside w v -> P w.
Proof.
  fix IH 1. intros v.
  assert (C : (forall l u w, v = YSeq l -> In u l -> inside w u -> P w) /\ (forall m key u w, v = YMap m -> In (key, u) m -> inside w u -> P w)).
  { destruct v as [t|z|t|b| |l|m]; split; try discriminate.
    - intros l' u w [= <-]. revert u w. induction l as [|x l IHl]; intros u w Hu Hw; [destruct Hu|].
      destruct Hu as [<-|Hu]; [exact (IH x w Hw)|exact (IHl u w Hu Hw)].
    - intros m' key u w [= <-]. revert key u w. induction m as [|[key' x] m IHm]; intros key u w Hu Hw; [destruct Hu|].
      destruct Hu as [E|Hu]; [injection E as _ E; rewrite <- E in Hw; exact (IH x w Hw)|exact (IHm key u w Hu Hw)]. }
  clear IH. destruct C as [C1 C2]. intros w Hw. inversion Hw; subst; [now apply Hstep|eapply C1; eauto|eapply C2; eauto].
Qed.
Lemma yaml_deep : forall v, P v.
Proof. intros v. apply (yaml_deep_aux v). constructor. Qed.
End Ind.

Lemma inside_trans a b c : inside a b -> inside b c -> inside a c.
Proof. intros H1 H2. revert H1. induction H2 as [|w l Hin Hi IH|key w m Hin Hi IH]; intros H1; [exact H1|econstructor; eauto..]. Qed.
Lemma one_each_inside v w : one_each v -> inside w v -> one_each w.
Proof. intros H Hi m Hm. apply H. eapply inside_trans; eassumption. Qed.
Lemma one_each_seq l v : one_each (YSeq l) -> In v l -> one_each v.
Proof. intros H Hi. eapply one_each_inside; [exact H|]. econstructor; [exact Hi|constructor]. Qed.
Lemma one_each_map m key v : one_each (YMap m) -> In (key, v) m -> one_each v.
Proof. intros H Hi. eapply one_each_inside; [exact H|]. econstructor; [exact Hi|constructor]. Qed.
Lemma one_each_keys m : one_each (YMap m) -> NoDup (keys_of m).
Proof. intros H. apply H. constructor. Qed.

Lemma keys_in m key : In key (keys_of m) <-> exists v, In (Some key, v) m.
Proof.
  unfold keys_of. rewrite in_flat_map. split.
  - intros ([[key'|] v] & Hi & Hk); cbn in Hk; [|destruct Hk]. destruct Hk as [->|[]]. eauto.
  - intros (v & Hi). exists (Some key, v). split; [exact Hi|now left].
Qed.
Lemma keys_once m key v w : NoDup (keys_of m) -> In (Some key, v) m -> In (Some key, w) m -> v = w.
Proof.
  induction m as [|[kx u] m IH]; [intros _ []|]. intros Hn.
  assert (Hn' : NoDup (keys_of m)).
  { unfold keys_of in Hn |- *. cbn in Hn. destruct kx; [now inversion Hn|exact Hn]. }
  intros [[= -> ->]|Hv] [E|Hw].
  - now injection E.
  - exfalso. unfold keys_of in Hn. cbn in Hn. apply NoDup_cons_iff in Hn. apply (proj1 Hn). apply (proj2 (keys_in m key)). eauto.
  - injection E as -> ->. exfalso. unfold keys_of in Hn. cbn in Hn. apply NoDup_cons_iff in Hn. apply (proj1 Hn). apply (proj2 (keys_in m key)). eauto.
  - now apply IH.
Qed.

Lemma text_eqb_spec (a b : text) : reflect (a = b) (text_eqb a b).
Proof. unfold text_eqb. destruct (text_eq_dec a b); now constructor. Qed.
Lemma teq a b : text_eqb a b = true <-> a = b.
Proof. destruct (text_eqb_spec a b); split; congruence. Qed.
Lemma obind_ok {E A B} (x : outcome E A) (f : A -> outcome E B) b : obind x f = Ok b <-> exists a, x = Ok a /\ f a = Ok b.
Proof. destruct x; cbn; split; try (intros (a' & H & _); discriminate); try discriminate; [eauto|intros (? & [= ->] & H); exact H]. Qed.
Lemma omap_ok {E A B} (f : A -> B) (x : outcome E A) b : omap f x = Ok b <-> exists a, x = Ok a /\ b = f a.
Proof. destruct x; cbn; split; try (intros (a' & H & _); discriminate); try discriminate; [intros [= <-]; eauto|now intros (? & [= ->] & ->)]. Qed.

(** * Loops *)
Lemma collect_flat {A E B X} (p : A -> list X) (R : X -> B -> Prop) (f : A -> outcome E (option B)) l :
  (forall a, In a l -> (p a = [] /\ f a = Ok None) \/ (exists x, p a = [x] /\ forall o, f a = Ok o <-> exists b, R x b /\ o = Some b)) ->
  forall r, collect f l = Ok r <-> Forall2 R (flat_map p l) r.
Proof.
  induction l as [|a l IH]; intros H r; cbn [collect flat_map].
  - split; [intros [= <-]; constructor|intros Hr; now inversion Hr].
  - assert (IH' := IH (fun b Hb => H b (or_intror Hb))). fold (collect f l).
    destruct (H a (or_introl eq_refl)) as [[Ep Ef]|(x & Ep & Hf)].
    + rewrite Ep, Ef. cbn [obind app]. rewrite obind_ok. split.
      * intros (bs & Hb & [= <-]). now apply IH'.
      * intros Hr. exists r. split; [now apply IH'|reflexivity].
    + rewrite Ep. cbn [app]. rewrite obind_ok. split.
      * intros (o & Ho & Hb). apply Hf in Ho. destruct Ho as (b & Hr & ->). apply obind_ok in Hb.
        destruct Hb as (bs & Hb & [= <-]). constructor; [exact Hr|now apply IH'].
      * intros Hr. inversion Hr as [|? b ? bs Hx Hb]; subst. exists (Some b). split; [apply Hf; eauto|].
        apply obind_ok. exists bs. split; [now apply IH'|reflexivity].
Qed.
Lemma collect_all {A E B} (R : A -> B -> Prop) (f : A -> outcome E B) l :
  (forall a, In a l -> forall b, f a = Ok b <-> R a b) ->
  forall r, collect (fun a => omap Some (f a)) l = Ok r <-> Forall2 R l r.
Proof.
  intros H r. replace l with (flat_map (fun a => [a]) l) at 2.
  - apply collect_flat. intros a Ha. right. exists a. split; [reflexivity|]. intros o. rewrite omap_ok. split.
    + intros (b & Hb & ->). exists b. split; [now apply H|reflexivity].
    + intros (b & Hb & ->). exists b. split; [now apply H|reflexivity].
  - clear. induction l as [|a l IH]; cbn; [reflexivity|]. now rewrite IH.
Qed.
Lemma collect_maps {B} (R : list (option text * yaml) -> B -> Prop) f l :
  (forall m, In (YMap m) l -> forall b, f m = Ok b <-> R m b) ->
  forall r, y_maps f l = Ok r <-> Forall2 R (maps_of l) r.
Proof.
  intros H r. apply collect_flat. intros a Ha. destruct a; try (left; split; reflexivity).
  right. exists m. split; [reflexivity|]. intros o. rewrite omap_ok. split; intros (b & Hb & ->); exists b; (split; [now apply H|reflexivity]).
Qed.
Lemma collect_entries {B} (R : yaml -> B -> Prop) (f : yaml -> outcome yerr B) m :
  (forall key v, In (Some key, v) m -> forall b, f v = Ok b <-> R v b) ->
  forall r, collect (fun e => match e with (Some key, v) => let! n := f v in Ok (Some (key, n)) | (None, _) => Ok None end) m = Ok r <->
            Forall2 (fun a b => fst a = fst b /\ R (snd a) (snd b)) (entries_of m) r.
Proof.
  intros H r. apply collect_flat. intros [[key|] v] Ha; [|left; split; reflexivity].
  right. exists (key, v). split; [reflexivity|]. intros o. rewrite obind_ok. split.
  - intros (b & Hb & [= <-]). exists (key, b). split; [split; [reflexivity|]|reflexivity]. cbn. eapply H; eassumption.
  - intros ((key', b) & (Hk & Hb) & ->). cbn in Hk, Hb. subst key'. exists b. split; [eapply H; eassumption|reflexivity].
Qed.

Section Fold.
Context {X : Type}.
Variable step : X -> option text * yaml -> outcome yerr X.
(** The field [g] is set by the entries under [key], to what [f] reads, and by no others. *)
Definition sets {A} (g : X -> A) (key : text) (f : yaml -> outcome yerr A) : Prop :=
  (forall x v x', step x (Some key, v) = Ok x' -> f v = Ok (g x')) /\
  (forall x kx v x', kx <> Some key -> step x (kx, v) = Ok x' -> g x' = g x).
Lemma fold_field {A} (g : X -> A) key f m : sets g key f -> NoDup (keys_of m) -> forall x x', foldo step x m = Ok x' ->
  (exists v, In (Some key, v) m /\ f v = Ok (g x')) \/ (lacks m key /\ g x' = g x).
Proof.
  intros [Hs Hk]. unfold lacks. induction m as [|[kx v] m IH]; intros Hn x x'; cbn.
  - intros [= ->]. right. split; [tauto|reflexivity].
  - rewrite obind_ok. intros (y & Hy & Hf).
    assert (Hn' : NoDup (keys_of m)). { unfold keys_of in Hn |- *. cbn in Hn. destruct kx; [now inversion Hn|exact Hn]. }
    destruct (IH Hn' y x' Hf) as [(w & Hw & E)|(Hl & E)]; [left; eauto|].
    assert (D : kx = Some key \/ kx <> Some key).
    { destruct kx as [key'|]; [|right; discriminate]. destruct (text_eqb_spec key' key); [left|right]; congruence. }
    destruct D as [->|D].
    + left. exists v. split; [now left|]. rewrite E. now apply Hs with (x := x).
    + right. split.
      * unfold keys_of. cbn. destruct kx as [key'|]; cbn; [|exact Hl]. intros [->|Hi]; [now elim D|exact (Hl Hi)].
      * rewrite E. now apply Hk with (kx := kx) (v := v).
Qed.
Lemma fold_runs m : (forall kx v, In (kx, v) m -> forall x, exists x', step x (kx, v) = Ok x') -> forall x, exists x', foldo step x m = Ok x'.
Proof.
  induction m as [|[kx v] m IH]; intros H x; cbn; [eauto|]. destruct (H kx v (or_introl eq_refl) x) as (y & ->). cbn [obind].
  apply IH. intros kx' v' Hi. apply H. now right.
Qed.
Lemma fold_ran m : forall x x', foldo step x m = Ok x' -> forall kx v, In (kx, v) m -> exists y y', step y (kx, v) = Ok y'.
Proof.
  induction m as [|[kx v] m IH]; intros x x'; cbn; [intros _ kx v []|]. rewrite obind_ok. intros (y & Hy & Hf) kx' v' [[= -> ->]|Hi]; [eauto|].
  eapply IH; eassumption.
Qed.
End Fold.

(** Fields by relations *)
Lemma defaults_once {A} m key (R : yaml -> A -> Prop) d a b : NoDup (keys_of m) ->
  (forall v, In (Some key, v) m -> forall x y, R v x -> R v y -> x = y) -> defaults m key R d a -> defaults m key R d b -> a = b.
Proof.
  intros Hn HR [(v & Hi & Ha)|[Hl ->]] [(w & Hj & Hb)|[Hl' ->]]; [|exfalso; apply Hl', keys_in; eauto|exfalso; apply Hl, keys_in; eauto|reflexivity].
  assert (v = w) as <- by (eapply keys_once; eassumption). eapply HR; eassumption.
Qed.
Lemma optional_defaults {A} m key (R : yaml -> A -> Prop) o :
  optional m key R o <-> defaults m key (fun v o => exists a, R v a /\ o = Some a) None o.
Proof.
  unfold optional, defaults. split; (intros [(v & H)|H]; [left|right; exact H]).
  - destruct H as (a & Hi & Hr & ->). eauto.
  - destruct H as (Hi & a & Hr & ->). eauto.
Qed.
Lemma optional_once {A} m key (R : yaml -> A -> Prop) a b : NoDup (keys_of m) ->
  (forall v, In (Some key, v) m -> forall x y, R v x -> R v y -> x = y) -> optional m key R a -> optional m key R b -> a = b.
Proof.
  intros Hn HR Ha Hb. apply optional_defaults in Ha. apply optional_defaults in Hb. eapply defaults_once; try eassumption.
  intros v Hi x y (x' & Hx & ->) (y' & Hy & ->). f_equal. eapply HR; eassumption.
Qed.
Lemma required_once {A} m key (R : yaml -> A -> Prop) a b : NoDup (keys_of m) ->
  (forall v, In (Some key, v) m -> forall x y, R v x -> R v y -> x = y) -> required m key R a -> required m key R b -> a = b.
Proof. intros Hn HR (v & Hi & Ha) (w & Hj & Hb). assert (v = w) as <- by (eapply keys_once; eassumption). eapply HR; eassumption. Qed.
Lemma defaults_reads {A} m key (R : yaml -> A -> Prop) d a v : NoDup (keys_of m) -> defaults m key R d a -> In (Some key, v) m -> R v a.
Proof.
  intros Hn [(w & Hj & Hb)|[Hl _]] Hi; [|exfalso; apply Hl, keys_in; eauto].
  assert (v = w) as -> by (eapply keys_once; eassumption). exact Hb.
Qed.
Lemma optional_reads {A} m key (R : yaml -> A -> Prop) o v : NoDup (keys_of m) -> optional m key R o -> In (Some key, v) m -> exists a, R v a /\ o = Some a.
Proof. intros Hn H Hi. apply optional_defaults in H. exact (defaults_reads _ _ _ _ _ _ Hn H Hi). Qed.
Lemma required_reads {A} m key (R : yaml -> A -> Prop) a v : NoDup (keys_of m) -> required m key R a -> In (Some key, v) m -> R v a.
Proof. intros Hn (w & Hj & Hb) Hi. assert (v = w) as -> by (eapply keys_once; eassumption). exact Hb. Qed.

Section Params.
Variable F : Type.
Variable parse_f64 : text -> option F.
Variable k : classes.
Notation is_text := (is_text k).
Notation is_node := (is_node F parse_f64 k).
Notation is_int := (is_int F k).
Notation is_bool := (is_bool F k).
Notation is_real := (is_real F parse_f64 k).

Lemma subs_ok t ps : subs k t = Ok ps <-> parse_substitutions k t = Ok ps.
Proof. unfold subs. destruct (parse_substitutions k t); split; congruence. Qed.
Lemma text_ok v ps : y_text k v = Ok ps <-> is_text v ps.
Proof.
  unfold WfYamlSpec.is_text. destruct v; cbn [y_text]; try (split; [discriminate|intros (? & ? & _); discriminate]).
  rewrite subs_ok. split; [eauto|now intros (? & [= ->] & H)].
Qed.
Lemma single_ok t ps : single k t = Ok ps <-> exists n, parse_substitutions k t = Ok [Ref n] /\ ps = [Ref n].
Proof.
  unfold single. rewrite obind_ok. split.
  - intros (qs & Hq & H). apply subs_ok in Hq. destruct qs as [|[u|n] [|]]; try discriminate. injection H as <-. eauto.
  - intros (n & Hn & ->). exists [Ref n]. split; [now apply subs_ok|reflexivity].
Qed.
Lemma reference_ok t n : omap (NSub F) (single k t) = Ok n <-> is_reference F k (YStr t) n.
Proof.
  rewrite omap_ok. unfold is_reference. split.
  - intros (ps & Hp & ->). apply single_ok in Hp. destruct Hp as (name & Hp & ->). eauto.
  - intros (u & name & [= <-] & Hp & ->). exists [Ref name]. split; [apply single_ok; eauto|reflexivity].
Qed.
Lemma not_reference v n : (forall t, v <> YStr t) -> ~ is_reference F k v n.
Proof. intros H (t & name & -> & _). now apply (H t). Qed.
Lemma int_ok v n : y_int F k v = Ok n <-> is_int v n.
Proof.
  unfold WfYamlSpec.is_int. destruct v; cbn [y_int];
    try (split; [discriminate|intros [(? & ? & _)|H]; [discriminate|apply not_reference in H; [destruct H|discriminate]]]).
  - rewrite reference_ok. split; [now right|intros [(? & ? & _)|H]; [discriminate|exact H]].
  - split; [intros [= <-]; left; eauto|intros [(? & [= ->] & ->)|H]; [reflexivity|apply not_reference in H; [destruct H|discriminate]]].
Qed.
Lemma bool_ok v n : y_bool F k v = Ok n <-> is_bool v n.
Proof.
  unfold WfYamlSpec.is_bool. destruct v; cbn [y_bool];
    try (split; [discriminate|intros [(? & ? & _)|H]; [discriminate|apply not_reference in H; [destruct H|discriminate]]]).
  - rewrite reference_ok. split; [now right|intros [(? & ? & _)|H]; [discriminate|exact H]].
  - split; [intros [= <-]; left; eauto|intros [(? & [= ->] & ->)|H]; [reflexivity|apply not_reference in H; [destruct H|discriminate]]].
Qed.
Lemma real_ok v n : y_float F parse_f64 k v = Ok n <-> is_real v n.
Proof.
  unfold WfYamlSpec.is_real. destruct v; cbn [y_float];
    try (split; [discriminate|intros [(? & ? & ? & _)|H]; [discriminate|apply not_reference in H; [destruct H|discriminate]]]).
  - rewrite reference_ok. split; [now right|intros [(? & ? & ? & _)|H]; [discriminate|exact H]].
  - destruct (parse_f64 t) as [f|] eqn:E; (split; [|intros [(? & f' & [= <-] & Ef & ->)|H]; [congruence|apply not_reference in H; [destruct H|discriminate]]]).
    + intros [= <-]. left. eauto.
    + discriminate.
Qed.
Lemma node_ok : forall v n, y_node F parse_f64 k v = Ok n <-> is_node v n.
Proof.
  apply (yaml_deep (fun v => forall n, y_node F parse_f64 k v = Ok n <-> is_node v n)).
  intros v IHl IHm n. destruct v; cbn [y_node].
  - rewrite omap_ok. split.
    + intros (ps & Hp & ->). apply subs_ok in Hp. now constructor.
    + intros H. inversion H; subst. eexists. split; [apply subs_ok; eassumption|reflexivity].
  - split; [intros [= <-]; constructor|intros H; inversion H; subst; reflexivity].
  - destruct (parse_f64 t) as [f|] eqn:E; split; try discriminate; [intros [= <-]; now constructor|intros H; inversion H; congruence..].
  - split; [intros [= <-]; constructor|intros H; inversion H; subst; reflexivity].
  - split; [discriminate|intros H; inversion H].
  - rewrite omap_ok. assert (C : forall r, collect (fun w => omap Some (y_node F parse_f64 k w)) l = Ok r <-> Forall2 is_node l r).
    { apply collect_all. intros a Ha b. apply (IHl l a a eq_refl Ha). constructor. }
    split; [intros (r & Hr & ->); constructor; now apply C|intros H; inversion H; subst; eexists; split; [apply C; eassumption|reflexivity]].
  - rewrite omap_ok. assert (C := collect_entries is_node (y_node F parse_f64 k) m (fun key v Hv => IHm m (Some key) v v eq_refl Hv (in_here v))).
    split; [intros (r & Hr & ->); constructor; now apply C|intros H; inversion H; subst; eexists; split; [apply C; eassumption|reflexivity]].
Qed.
Lemma payload_ok m r : y_payload F parse_f64 k m = Ok r <-> is_payload F parse_f64 k m r.
Proof. apply collect_entries. intros key v _ b. apply node_ok. Qed.
Lemma strings_ok l r : y_strings k l = Ok r <-> Forall2 is_text l r.
Proof. apply collect_all. intros a _ b. apply text_ok. Qed.
Lemma texts_ok v r : match v with YSeq l => y_strings k l | _ => Err YFormat end = Ok r <-> is_texts k v r.
Proof.
  unfold is_texts. destruct v; try (split; [discriminate|intros (? & ? & _); discriminate]).
  rewrite strings_ok. split; [eauto|now intros (? & [= ->] & H)].
Qed.
Lemma list_ok {B} f (R : list (option text * yaml) -> B -> Prop) v : (forall m, inside (YMap m) v -> forall b, f m = Ok b <-> R m b) ->
  forall r, match v with YSeq l => y_maps f l | _ => Err YFormat end = Ok r <-> is_list R v r.
Proof.
  intros H r. unfold is_list. destruct v; try (split; [discriminate|intros (? & ? & _); discriminate]).
  rewrite (collect_maps R f l); [split; [eauto|now intros (? & [= ->] & Hl)]|]. intros m Hm. apply H. econstructor; [exact Hm|constructor].
Qed.
Lemma mapping_ok {B} f (R : list (option text * yaml) -> B -> Prop) v : (forall m, v = YMap m -> forall b, f m = Ok b <-> R m b) ->
  forall r, match v with YMap m => f m | _ => Err YFormat end = Ok r <-> is_mapping R v r.
Proof.
  intros H r. unfold is_mapping. destruct v; try (split; [discriminate|intros (? & ? & _); discriminate]).
  rewrite (H m eq_refl). split; [eauto|now intros (? & [= ->] & Hl)].
Qed.

Lemma yget_in m key v : NoDup (keys_of m) -> (yget key m = Some v <-> In (Some key, v) m).
Proof.
  induction m as [|[kx w] m IH]; intros Hn; cbn [yget In]; [split; [discriminate|tauto]|].
  assert (Hn' : NoDup (keys_of m)). { unfold keys_of in Hn |- *. cbn in Hn. destruct kx; [now inversion Hn|exact Hn]. }
  destruct kx as [key'|].
  - destruct (text_eqb_spec key' key) as [->|D].
    + split; [intros [= ->]; now left|]. intros [[= ->]|Hi]; [reflexivity|]. exfalso.
      unfold keys_of in Hn. cbn in Hn. apply NoDup_cons_iff in Hn. apply (proj1 Hn). apply (proj2 (keys_in m key)). eauto.
    + rewrite (IH Hn'). split; [now right|]. intros [[= -> _]|Hi]; [now elim D|exact Hi].
  - rewrite (IH Hn'). split; [now right|]. intros [[= ]|Hi]; exact Hi.
Qed.
Lemma condition_ok m c : NoDup (keys_of m) -> (y_condition F parse_f64 k m = Ok c <-> is_condition F parse_f64 k m c).
Proof.
  intros Hn. unfold y_condition, is_condition, required.
  assert (G1 : forall r, match yget (chars "inputs") m with Some (YSeq l) => collect (fun v => omap Some (y_node F parse_f64 k v)) l | _ => Err YFormat end = Ok r <->
    exists v, In (Some (chars "inputs"), v) m /\ exists l, v = YSeq l /\ Forall2 is_node l r).
  { intros r. destruct (yget (chars "inputs") m) as [v|] eqn:E.
    - apply (yget_in _ _ _ Hn) in E.
      assert (U : forall w, In (Some (chars "inputs"), w) m -> w = v) by (intros w Hw; eapply keys_once; eassumption).
      destruct v; try (split; [discriminate|intros (w & Hw & l' & -> & _); apply U in Hw; discriminate]).
      rewrite (collect_all is_node) by (intros a _ b; apply node_ok).
      split; [intros H; exists (YSeq l); eauto|]. intros (w & Hw & l' & -> & H). apply U in Hw. now injection Hw as ->.
    - split; [discriminate|]. intros (w & Hw & _). apply (yget_in _ _ _ Hn) in Hw. congruence. }
  assert (G2 : forall r, match yget (chars "function") m with Some (YStr t) => subs k t | _ => Err YFormat end = Ok r <->
    exists v, In (Some (chars "function"), v) m /\ is_text v r).
  { intros r. destruct (yget (chars "function") m) as [v|] eqn:E.
    - apply (yget_in _ _ _ Hn) in E.
      assert (U : forall w, In (Some (chars "function"), w) m -> w = v) by (intros w Hw; eapply keys_once; eassumption).
      destruct v; try (split; [discriminate|intros (w & Hw & t' & -> & _); apply U in Hw; discriminate]).
      rewrite subs_ok. split; [intros H; exists (YStr t); split; [exact E|]; exists t; auto|]. intros (w & Hw & t' & -> & H). apply U in Hw. now injection Hw as ->.
    - split; [discriminate|]. intros (w & Hw & _). apply (yget_in _ _ _ Hn) in Hw. congruence. }
  rewrite obind_ok. setoid_rewrite obind_ok. destruct c as [i f]. cbn. split.
  - intros (i' & Hi & f' & Hf & [= <- <-]). split; [now apply G1|now apply G2].
  - intros [Hi Hf]. exists i. split; [now apply G1|]. exists f. split; [now apply G2|reflexivity].
Qed.

(** * Records *)
Definition exact_on {A} (m : list (option text * yaml)) (key : text) (f : yaml -> outcome yerr A) (R : yaml -> A -> Prop) : Prop :=
  forall v, In (Some key, v) m -> forall a, f v = Ok a <-> R v a.
Lemma exact_once {A} m key (f : yaml -> outcome yerr A) R : exact_on m key f R -> forall v, In (Some key, v) m -> forall x y, R v x -> R v y -> x = y.
Proof. intros H v Hv x y Hx Hy. apply (H v Hv) in Hx. apply (H v Hv) in Hy. congruence. Qed.
Lemma to_defaults {X A} step (g : X -> A) key f R m x x' : sets step g key f -> NoDup (keys_of m) -> foldo step x m = Ok x' ->
  exact_on m key f R -> defaults m key R (g x) (g x').
Proof.
  intros Hs Hn Hf He. destruct (fold_field step g key f m Hs Hn x x' Hf) as [(v & Hi & E)|H]; [left|right; exact H].
  exists v. split; [exact Hi|now apply (He v Hi)].
Qed.
Lemma to_optional {X A} step (g : X -> option A) key f R m x x' : sets step g key (fun v => omap Some (f v)) -> NoDup (keys_of m) -> foldo step x m = Ok x' ->
  g x = None -> exact_on m key f R -> optional m key R (g x').
Proof.
  intros Hs Hn Hf E0 He. destruct (fold_field step g key _ m Hs Hn x x' Hf) as [(v & Hi & E)|[Hl E]]; [left|right; split; [exact Hl|congruence]].
  apply omap_ok in E. destruct E as (a & Ea & E). exists v, a. repeat split; [exact Hi|now apply (He v Hi)|exact E].
Qed.
Lemma entry_default {A} m key (f : yaml -> outcome yerr A) R d a v : NoDup (keys_of m) -> exact_on m key f R -> defaults m key R d a -> In (Some key, v) m -> f v = Ok a.
Proof. intros Hn He Hd Hi. apply (He v Hi). eapply defaults_reads; eassumption. Qed.
Lemma entry_optional {A} m key (f : yaml -> outcome yerr A) R o v : NoDup (keys_of m) -> exact_on m key f R -> optional m key R o -> In (Some key, v) m -> exists a, f v = Ok a.
Proof. intros Hn He Hd Hi. destruct (optional_reads _ _ _ _ _ Hn Hd Hi) as (a & Ha & _). exists a. now apply (He v Hi). Qed.

Ltac keyc := repeat match goal with |- context [text_eqb (chars ?a) (chars ?b)] =>
  let r := eval cbv in (text_eqb (chars a) (chars b)) in change (text_eqb (chars a) (chars b)) with r; cbv iota end.
Ltac sets_tac entry :=
  split;
  [ intros x v x'; unfold entry; try destruct x; keyc; rewrite obind_ok; intros (a & Ha & Hx); injection Hx as <-; first [exact Ha|exact (f_equal (omap Some) Ha)]
  | intros x [key'|] v x' D; unfold entry; [|now intros [= <-]];
    try destruct x;
    repeat match goal with |- context [text_eqb key' (chars ?b)] =>
      destruct (text_eqb_spec key' (chars b)) as [->|?]; [first [now elim D|rewrite obind_ok; intros (a & Ha & Hx); injection Hx as <-; reflexivity]|] end;
    first [intros [= <-]; reflexivity|discriminate] ].

Lemma exact_text m key : exact_on m key (y_text k) is_text. Proof. intros v _. apply text_ok. Qed.
Lemma exact_int m key : exact_on m key (y_int F k) is_int. Proof. intros v _. apply int_ok. Qed.
Lemma exact_bool m key : exact_on m key (y_bool F k) is_bool. Proof. intros v _. apply bool_ok. Qed.
Lemma exact_real m key : exact_on m key (y_float F parse_f64 k) is_real. Proof. intros v _. apply real_ok. Qed.
Lemma exact_node m key : exact_on m key (y_node F parse_f64 k) is_node. Proof. intros v _. apply node_ok. Qed.
Lemma exact_texts m key : exact_on m key (fun v => match v with YSeq l => y_strings k l | _ => Err YFormat end) (is_texts k).
Proof. intros v _. apply texts_ok. Qed.
Lemma exact_list {B} (f : _ -> outcome yerr B) R m key : (forall m', one_each (YMap m') -> forall b, f m' = Ok b <-> R m' b) -> one_each (YMap m) ->
  exact_on m key (fun v => match v with YSeq l => y_maps f l | _ => Err YFormat end) (is_list R).
Proof. intros H Hm v Hv. apply list_ok. intros m' Hi. apply H. eapply one_each_inside; [|exact Hi]. eapply one_each_map; eassumption. Qed.
Lemma exact_mapping {B} (f : _ -> outcome yerr B) R m key : (forall m', one_each (YMap m') -> forall b, f m' = Ok b <-> R m' b) -> one_each (YMap m) ->
  exact_on m key (fun v => match v with YMap m' => f m' | _ => Err YFormat end) (is_mapping R).
Proof. intros H Hm v Hv. apply mapping_ok. intros m' ->. apply H. eapply one_each_map; eassumption. Qed.

(** Every entry can be read. *)
Ltac runs_tac entry Hn := apply fold_runs; intros [key|] v Hi x; unfold entry; [|eauto]; try destruct x;
  repeat match goal with |- context [text_eqb key (chars ?b)] =>
      destruct (text_eqb_spec key (chars b)) as [->|?];
      [first [ match goal with He : exact_on _ (chars b) ?f ?R, Hd : optional _ (chars b) ?R _ |- _ =>
                 let a := fresh "a" in let Ha := fresh "Ha" in destruct (entry_optional _ _ f R _ v Hn He Hd Hi) as (a & Ha); cbv beta in Ha end
             | match goal with He : exact_on _ (chars b) ?f ?R, Hd : defaults _ (chars b) ?R _ _ |- _ =>
                 let Ha := fresh "Ha" in pose proof (entry_default _ _ f R _ _ v Hn He Hd Hi) as Ha; cbv beta in Ha end ];
       match goal with Ha : _ = Ok _ |- _ => unfold y_text_some, y_conditions, y_rules; rewrite Ha; cbn; eauto end|] end;
  try (eexists; reflexivity).

Lemma wait_ok m w : one_each (YMap m) -> (foldo (wait_entry k) {| sw_seconds := None; sw_timestamp := None |} m = Ok w <-> is_wait k m w).
Proof.
  intros Hm. pose proof (one_each_keys m Hm) as Hn.
  assert (S1 : sets (wait_entry k) sw_seconds (chars "seconds") (fun v => omap Some (y_text k v))) by sets_tac (@wait_entry).
  assert (S2 : sets (wait_entry k) sw_timestamp (chars "timestamp") (fun v => omap Some (y_text k v))) by sets_tac (@wait_entry).
  pose proof (exact_text m (chars "seconds")) as E1. pose proof (exact_text m (chars "timestamp")) as E2.
  assert (FW : forall w, foldo (wait_entry k) {| sw_seconds := None; sw_timestamp := None |} m = Ok w -> is_wait k m w).
  { intros w' Hf. split; eapply to_optional; try eassumption; reflexivity. }
  split; [apply FW|]. intros (H1 & H2).
  assert (R : exists w', foldo (wait_entry k) {| sw_seconds := None; sw_timestamp := None |} m = Ok w') by (runs_tac (@wait_entry) Hn).
  destruct R as (w' & Hw). rewrite Hw. f_equal. destruct (FW w' Hw) as (G1 & G2). destruct w, w'. cbn in *.
  f_equal; eapply optional_once; try eassumption; eapply exact_once; eassumption.
Qed.

Ltac once_tac := f_equal; first [eapply optional_once; try eassumption; eapply exact_once; eassumption|eapply defaults_once; try eassumption; eapply exact_once; eassumption].
Lemma failure_ok m w : one_each (YMap m) -> (foldo (failure_entry k) {| sf_error := None; sf_cause := None |} m = Ok w <-> is_failure k m w).
Proof.
  intros Hm. pose proof (one_each_keys m Hm) as Hn.
  assert (S1 : sets (failure_entry k) sf_error (chars "error") (fun v => omap Some (y_text k v))) by sets_tac (@failure_entry).
  assert (S2 : sets (failure_entry k) sf_cause (chars "cause") (fun v => omap Some (y_text k v))) by sets_tac (@failure_entry).
  pose proof (exact_text m (chars "error")) as E1. pose proof (exact_text m (chars "cause")) as E2.
  assert (FW : forall w, foldo (failure_entry k) {| sf_error := None; sf_cause := None |} m = Ok w -> is_failure k m w).
  { intros w' Hf. split; eapply to_optional; try eassumption; reflexivity. }
  split; [apply FW|]. intros (H1 & H2).
  assert (R : exists w', foldo (failure_entry k) {| sf_error := None; sf_cause := None |} m = Ok w') by (runs_tac (@failure_entry) Hn).
  destruct R as (w' & Hw). rewrite Hw. f_equal. destruct (FW w' Hw) as (G1 & G2). destruct w, w'. cbn in *. once_tac.
Qed.
Lemma catch_ok m c : one_each (YMap m) -> (y_catch k m = Ok c <-> is_catch k m c).
Proof.
  intros Hm. pose proof (one_each_keys m Hm) as Hn. unfold y_catch.
  assert (S1 : sets (catch_entry k) sh_match (chars "matchErrors") (fun v => match v with YSeq l => y_strings k l | _ => Err YFormat end)) by sets_tac (@catch_entry).
  assert (S2 : sets (catch_entry k) sh_next (chars "next") (y_text k)) by sets_tac (@catch_entry).
  assert (S3 : sets (catch_entry k) sh_path (chars "resultPath") (fun v => omap Some (y_text k v))) by sets_tac (@catch_entry).
  pose proof (exact_texts m (chars "matchErrors")) as E1. pose proof (exact_text m (chars "next")) as E2. pose proof (exact_text m (chars "resultPath")) as E3.
  assert (FW : forall c, foldo (catch_entry k) empty_catch m = Ok c -> is_catch k m c).
  { intros c' Hf. split; [|split].
    - eapply (to_defaults _ _ _ _ _ _ _ _ S1 Hn Hf E1).
    - eapply (to_defaults _ _ _ _ _ _ _ _ S2 Hn Hf E2).
    - eapply to_optional; try eassumption; reflexivity. }
  split; [apply FW|]. intros (H1 & H2 & H3).
  assert (R : exists w', foldo (catch_entry k) empty_catch m = Ok w') by (runs_tac (@catch_entry) Hn).
  destruct R as (w' & Hw). rewrite Hw. f_equal. destruct (FW w' Hw) as (G1 & G2 & G3). destruct c, w'. cbn in *. once_tac.
Qed.
Lemma retry_ok m r : one_each (YMap m) -> (y_retry F parse_f64 k m = Ok r <-> is_retry F parse_f64 k m r).
Proof.
  intros Hm. pose proof (one_each_keys m Hm) as Hn. unfold y_retry.
  assert (S1 : sets (retry_entry F parse_f64 k) (sy_match F) (chars "matchErrors") (fun v => match v with YSeq l => y_strings k l | _ => Err YFormat end)) by sets_tac (@retry_entry).
  assert (S2 : sets (retry_entry F parse_f64 k) (sy_interval F) (chars "interval") (fun v => omap Some (y_int F k v))) by sets_tac (@retry_entry).
  assert (S3 : sets (retry_entry F parse_f64 k) (sy_attempts F) (chars "maxAttempts") (fun v => omap Some (y_int F k v))) by sets_tac (@retry_entry).
  assert (S4 : sets (retry_entry F parse_f64 k) (sy_delay F) (chars "maxDelay") (fun v => omap Some (y_int F k v))) by sets_tac (@retry_entry).
  assert (S5 : sets (retry_entry F parse_f64 k) (sy_jitter F) (chars "jitter") (fun v => omap Some (y_bool F k v))) by sets_tac (@retry_entry).
  assert (S6 : sets (retry_entry F parse_f64 k) (sy_backoff F) (chars "backoffRate") (fun v => omap Some (y_float F parse_f64 k v))) by sets_tac (@retry_entry).
  pose proof (exact_texts m (chars "matchErrors")) as E1. pose proof (exact_int m (chars "interval")) as E2. pose proof (exact_int m (chars "maxAttempts")) as E3.
  pose proof (exact_int m (chars "maxDelay")) as E4. pose proof (exact_bool m (chars "jitter")) as E5. pose proof (exact_real m (chars "backoffRate")) as E6.
  assert (FW : forall c, foldo (retry_entry F parse_f64 k) (empty_retry F) m = Ok c -> is_retry F parse_f64 k m c).
  { intros c' Hf. split; [exact (to_defaults _ _ _ _ _ _ _ _ S1 Hn Hf E1)|]. repeat split; eapply to_optional; try eassumption; reflexivity. }
  split; [apply FW|]. intros (H1 & H2 & H3 & H4 & H5 & H6).
  assert (R : exists w', foldo (retry_entry F parse_f64 k) (empty_retry F) m = Ok w') by (runs_tac (@retry_entry) Hn).
  destruct R as (w' & Hw). rewrite Hw. f_equal. destruct (FW w' Hw) as (G1 & G2 & G3 & G4 & G5 & G6). destruct r, w'. cbn in *. once_tac.
Qed.
Hypothesis Hk : sane k.
Lemma text_full v ps : is_text v ps -> ps <> [].
Proof. intros (t & _ & E). pose proof (C53_never_panics k Hk t) as P. rewrite E in P. exact P. Qed.
Lemma filled m key ps : defaults m key is_text [] ps -> (parts_empty ps = false <-> required m key is_text ps /\ ps <> [Lit []]).
Proof.
  intros [(v & Hi & Ht)|[Hl ->]].
  - split; [|].
    + intros E. split; [exists v; auto|]. intros ->. discriminate.
    + intros [_ D]. pose proof (text_full v ps Ht). unfold parts_empty. destruct ps as [|[[|]|] [|]]; try reflexivity; [congruence|now elim D].
  - cbn. split; [discriminate|]. intros [(v & Hi & _) _]. exfalso. apply Hl, keys_in. eauto.
Qed.
Lemma required_default {A} m key (R : yaml -> A -> Prop) d a : required m key R a -> defaults m key R d a.
Proof. intros (v & Hi & H). left. eauto. Qed.
Lemma rule_ok m r : one_each (YMap m) -> (y_rule F parse_f64 k m = Ok r <-> is_rule F parse_f64 k m r).
Proof.
  intros Hm. pose proof (one_each_keys m Hm) as Hn. unfold y_rule.
  assert (CO : forall m', one_each (YMap m') -> forall b, y_condition F parse_f64 k m' = Ok b <-> is_condition F parse_f64 k m' b)
    by (intros m' Hm' b; apply condition_ok, one_each_keys, Hm').
  assert (S1 : sets (rule_entry F parse_f64 k) (su_and F) (chars "and") (fun v => omap Some (match v with YSeq l => y_maps (y_condition F parse_f64 k) l | _ => Err YFormat end))) by sets_tac (@rule_entry).
  assert (S2 : sets (rule_entry F parse_f64 k) (su_or F) (chars "or") (fun v => omap Some (match v with YSeq l => y_maps (y_condition F parse_f64 k) l | _ => Err YFormat end))) by sets_tac (@rule_entry).
  assert (S3 : sets (rule_entry F parse_f64 k) (su_not F) (chars "not") (fun v => omap Some (match v with YMap m => y_condition F parse_f64 k m | _ => Err YFormat end))) by sets_tac (@rule_entry).
  assert (S4 : sets (rule_entry F parse_f64 k) (su_condition F) (chars "condition") (fun v => omap Some (match v with YMap m => y_condition F parse_f64 k m | _ => Err YFormat end))) by sets_tac (@rule_entry).
  assert (S5 : sets (rule_entry F parse_f64 k) (su_next F) (chars "next") (y_text k)) by sets_tac (@rule_entry).
  pose proof (exact_list _ _ m (chars "and") CO Hm) as E1. pose proof (exact_list _ _ m (chars "or") CO Hm) as E2.
  pose proof (exact_mapping _ _ m (chars "not") CO Hm) as E3. pose proof (exact_mapping _ _ m (chars "condition") CO Hm) as E4.
  pose proof (exact_text m (chars "next")) as E5.
  assert (FW : forall c, foldo (rule_entry F parse_f64 k) (empty_rule F) m = Ok c ->
    optional m (chars "and") (is_list (is_condition F parse_f64 k)) (su_and F c) /\
    optional m (chars "or") (is_list (is_condition F parse_f64 k)) (su_or F c) /\
    optional m (chars "not") (is_mapping (is_condition F parse_f64 k)) (su_not F c) /\
    optional m (chars "condition") (is_mapping (is_condition F parse_f64 k)) (su_condition F c) /\
    defaults m (chars "next") is_text [] (su_next F c)).
  { intros c' Hf. split; [exact (to_optional _ _ _ _ _ _ _ _ S1 Hn Hf eq_refl E1)|]. split; [exact (to_optional _ _ _ _ _ _ _ _ S2 Hn Hf eq_refl E2)|].
    split; [exact (to_optional _ _ _ _ _ _ _ _ S3 Hn Hf eq_refl E3)|]. split; [exact (to_optional _ _ _ _ _ _ _ _ S4 Hn Hf eq_refl E4)|exact (to_defaults _ _ _ _ _ _ _ _ S5 Hn Hf E5)]. }
  rewrite obind_ok. split.
  - intros (r' & Hf & Hr). destruct (FW r' Hf) as (G1 & G2 & G3 & G4 & G5). destruct (parts_empty (su_next F r')) eqn:E; [discriminate|].
    injection Hr as ->. apply (filled _ _ _ G5) in E. unfold is_rule. tauto.
  - intros (H1 & H2 & H3 & H4 & H5 & H6). pose proof (required_default _ _ _ [] _ H5) as H5'.
    assert (R : exists w', foldo (rule_entry F parse_f64 k) (empty_rule F) m = Ok w') by (clear H5 H6; runs_tac (@rule_entry) Hn).
    destruct R as (w' & Hw). exists w'. split; [exact Hw|]. destruct (FW w' Hw) as (G1 & G2 & G3 & G4 & G5).
    assert (w' = r) as -> by (destruct r, w'; cbn in *; once_tac).
    now rewrite (proj2 (filled _ _ _ G5)) by tauto.
Qed.

Notation is_state := (is_state F parse_f64 k).
Notation is_branch := (is_branch F parse_f64 k).
Notation branches := (fun w => match w with YSeq l => y_maps (y_branch F k (y_state F parse_f64 k)) l | _ => Err YFormat end).
Lemma states_ok m : (forall key v, In (Some key, v) m -> forall s, y_state F parse_f64 k v = Ok s <-> is_state v s) ->
  forall r, y_states F (y_state F parse_f64 k) m = Ok r <-> are_states F parse_f64 k m r.
Proof. intros H. apply collect_entries. exact H. Qed.
Lemma branch_ok m b : one_each (YMap m) -> (forall v, inside v (YMap m) -> forall s, y_state F parse_f64 k v = Ok s <-> is_state v s) ->
  (y_branch F k (y_state F parse_f64 k) m = Ok b <-> is_branch m b).
Proof.
  intros Hm IH. pose proof (one_each_keys m Hm) as Hn. unfold y_branch.
  assert (S1 : sets (branch_entry F k (y_state F parse_f64 k)) fst (chars "startAt") (y_text k)) by sets_tac (@branch_entry).
  assert (S2 : sets (branch_entry F k (y_state F parse_f64 k)) snd (chars "states") (fun v => match v with YMap m => y_states F (y_state F parse_f64 k) m | _ => Err YFormat end))
    by sets_tac (@branch_entry).
  pose proof (exact_text m (chars "startAt")) as E1.
  assert (E2 : exact_on m (chars "states") (fun v => match v with YMap m => y_states F (y_state F parse_f64 k) m | _ => Err YFormat end) (is_mapping (are_states F parse_f64 k))).
  { intros v Hv. apply mapping_ok. intros m' -> b'. apply states_ok. intros key w Hw. apply IH. econstructor; [exact Hv|]. econstructor; [exact Hw|constructor]. }
  assert (FW : forall c, foldo (branch_entry F k (y_state F parse_f64 k)) ([], []) m = Ok c -> is_branch m c).
  { intros c' Hf. split; [exact (to_defaults _ _ _ _ _ _ _ _ S1 Hn Hf E1)|exact (to_defaults _ _ _ _ _ _ _ _ S2 Hn Hf E2)]. }
  split; [apply FW|]. intros (H1 & H2).
  assert (R : exists w', foldo (branch_entry F k (y_state F parse_f64 k)) ([], []) m = Ok w') by (runs_tac (@branch_entry) Hn).
  destruct R as (w' & Hw). rewrite Hw. f_equal. destruct (FW w' Hw) as (G1 & G2). destruct b, w'. cbn in *. once_tac.
Qed.

Notation entry := (state_entry F parse_f64 k branches).
Lemma state_sets :
  sets entry (ss_type F) (chars "type") (y_text k) /\
  sets entry (ss_description F) (chars "description") (fun v => omap Some (y_text k v)) /\
  sets entry (ss_input F) (chars "inputPath") (fun v => omap Some (y_text k v)) /\
  sets entry (ss_result_path F) (chars "resultPath") (fun v => omap Some (y_text k v)) /\
  sets entry (ss_output F) (chars "outputPath") (fun v => omap Some (y_text k v)) /\
  sets entry (ss_payload F) (chars "payloadTemplate") (fun v => omap Some (match v with YMap m => y_payload F parse_f64 k m | _ => Err YFormat end)) /\
  sets entry (ss_next F) (chars "next") (fun v => omap Some (y_text k v)) /\
  sets entry (ss_end F) (chars "end") (fun v => omap Some (y_bool F k v)) /\
  sets entry (ss_decisions F) (chars "decisions") (fun v => omap Some (match v with YSeq l => y_maps (y_rule F parse_f64 k) l | _ => Err YFormat end)) /\
  sets entry (ss_result F) (chars "result") (fun v => omap Some (y_node F parse_f64 k v)) /\
  sets entry (ss_timeout F) (chars "timeout") (fun v => omap Some (y_int F k v)) /\
  sets entry (ss_wait F) (chars "waitConfig") (fun v => omap Some (y_wait k v)) /\
  sets entry (ss_failure F) (chars "failureConfig") (fun v => omap Some (y_failure k v)) /\
  sets entry (ss_branches F) (chars "parallelBranches") (fun v => omap Some (match v with YSeq l => y_maps (y_branch F k (y_state F parse_f64 k)) l | _ => Err YFormat end)) /\
  sets entry (ss_retry F) (chars "retry") (fun v => omap Some (match v with YSeq l => y_maps (y_retry F parse_f64 k) l | _ => Err YFormat end)) /\
  sets entry (ss_catch F) (chars "catch") (fun v => omap Some (match v with YSeq l => y_maps (y_catch k) l | _ => Err YFormat end)).
Proof. repeat match goal with |- _ /\ _ => split; [sets_tac (@state_entry)|] end. sets_tac (@state_entry). Qed.
(** What [is_state] says of a mapping, but for the type not being blank *)
Definition fields_of (m : list (option text * yaml)) (s : sstate F) : Prop :=
  (forall key, In key (keys_of m) -> In key state_keys) /\
  defaults m (chars "type") is_text [] (ss_type F s) /\
  optional m (chars "description") is_text (ss_description F s) /\
  optional m (chars "inputPath") is_text (ss_input F s) /\
  optional m (chars "resultPath") is_text (ss_result_path F s) /\
  optional m (chars "outputPath") is_text (ss_output F s) /\
  optional m (chars "payloadTemplate") (is_mapping (is_payload F parse_f64 k)) (ss_payload F s) /\
  optional m (chars "next") is_text (ss_next F s) /\
  optional m (chars "end") is_bool (ss_end F s) /\
  optional m (chars "decisions") (is_list (is_rule F parse_f64 k)) (ss_decisions F s) /\
  optional m (chars "result") is_node (ss_result F s) /\
  optional m (chars "timeout") is_int (ss_timeout F s) /\
  optional m (chars "waitConfig") (is_mapping (is_wait k)) (ss_wait F s) /\
  optional m (chars "failureConfig") (is_mapping (is_failure k)) (ss_failure F s) /\
  optional m (chars "parallelBranches") (is_list is_branch) (ss_branches F s) /\
  optional m (chars "retry") (is_list (is_retry F parse_f64 k)) (ss_retry F s) /\
  optional m (chars "catch") (is_list (is_catch k)) (ss_catch F s).
Lemma state_fields m : one_each (YMap m) -> (forall v w key, In (key, v) m -> inside w v -> forall s, y_state F parse_f64 k w = Ok s <-> is_state w s) ->
  forall s, foldo entry (empty_state F) m = Ok s <-> fields_of m s.
Proof.
  intros Hm IH. pose proof (one_each_keys m Hm) as Hn.
  destruct state_sets as (S0 & S1 & S2 & S3 & S4 & S5 & S6 & S7 & S8 & S9 & S10 & S11 & S12 & S13 & S14 & S15).
  pose proof (exact_text m (chars "type")) as E0.
  pose proof (exact_text m (chars "description")) as E1.
  pose proof (exact_text m (chars "inputPath")) as E2.
  pose proof (exact_text m (chars "resultPath")) as E3.
  pose proof (exact_text m (chars "outputPath")) as E4.
  pose proof (exact_mapping _ _ m (chars "payloadTemplate") (fun m' _ => payload_ok m') Hm) as E5.
  pose proof (exact_text m (chars "next")) as E6.
  pose proof (exact_bool m (chars "end")) as E7.
  pose proof (exact_list _ _ m (chars "decisions") (fun m' H b => rule_ok m' b H) Hm) as E8.
  pose proof (exact_node m (chars "result")) as E9.
  pose proof (exact_int m (chars "timeout")) as E10.
  assert (E11 : exact_on m (chars "waitConfig") (y_wait k) (is_mapping (is_wait k))) by exact (exact_mapping _ _ m (chars "waitConfig") (fun m' H b => wait_ok m' b H) Hm).
  assert (E12 : exact_on m (chars "failureConfig") (y_failure k) (is_mapping (is_failure k))) by exact (exact_mapping _ _ m (chars "failureConfig") (fun m' H b => failure_ok m' b H) Hm).
  assert (E13 : exact_on m (chars "parallelBranches") branches (is_list is_branch)).
  { intros v Hv. apply list_ok. intros m' Hi b. apply branch_ok.
    - eapply one_each_inside; [|exact Hi]. eapply one_each_map; eassumption.
    - intros w Hw. eapply IH; [exact Hv|]. eapply inside_trans; eassumption. }
  pose proof (exact_list _ _ m (chars "retry") (fun m' H b => retry_ok m' b H) Hm) as E14.
  pose proof (exact_list _ _ m (chars "catch") (fun m' H b => catch_ok m' b H) Hm) as E15.
  assert (FW : forall s, foldo entry (empty_state F) m = Ok s -> fields_of m s).
  { intros s Hf. split; [|split; [exact (to_defaults _ _ _ _ _ _ _ _ S0 Hn Hf E0)|]].
    - intros key Hi. apply keys_in in Hi. destruct Hi as (v & Hi). destruct (fold_ran _ _ _ _ Hf _ _ Hi) as (y & y' & Hy). revert Hy.
      unfold state_entry. destruct y.
      repeat match goal with |- context [text_eqb key (chars ?b)] => destruct (text_eqb_spec key (chars b)) as [->|?]; [intros _; cbv; tauto|] end. discriminate.
    - split; [exact (to_optional _ _ _ _ _ _ _ _ S1 Hn Hf eq_refl E1)|].
      split; [exact (to_optional _ _ _ _ _ _ _ _ S2 Hn Hf eq_refl E2)|].
      split; [exact (to_optional _ _ _ _ _ _ _ _ S3 Hn Hf eq_refl E3)|].
      split; [exact (to_optional _ _ _ _ _ _ _ _ S4 Hn Hf eq_refl E4)|].
      split; [exact (to_optional _ _ _ _ _ _ _ _ S5 Hn Hf eq_refl E5)|].
      split; [exact (to_optional _ _ _ _ _ _ _ _ S6 Hn Hf eq_refl E6)|].
      split; [exact (to_optional _ _ _ _ _ _ _ _ S7 Hn Hf eq_refl E7)|].
      split; [exact (to_optional _ _ _ _ _ _ _ _ S8 Hn Hf eq_refl E8)|].
      split; [exact (to_optional _ _ _ _ _ _ _ _ S9 Hn Hf eq_refl E9)|].
      split; [exact (to_optional _ _ _ _ _ _ _ _ S10 Hn Hf eq_refl E10)|].
      split; [exact (to_optional _ _ _ _ _ _ _ _ S11 Hn Hf eq_refl E11)|].
      split; [exact (to_optional _ _ _ _ _ _ _ _ S12 Hn Hf eq_refl E12)|].
      split; [exact (to_optional _ _ _ _ _ _ _ _ S13 Hn Hf eq_refl E13)|].
      split; [exact (to_optional _ _ _ _ _ _ _ _ S14 Hn Hf eq_refl E14)|].
      exact (to_optional _ _ _ _ _ _ _ _ S15 Hn Hf eq_refl E15). }
  intros s. split; [apply FW|]. intros (HK & H0 & H1 & H2 & H3 & H4 & H5 & H6 & H7 & H8 & H9 & H10 & H11 & H12 & H13 & H14 & H15).
  assert (R : exists s', foldo entry (empty_state F) m = Ok s').
  { runs_tac (@state_entry) Hn. exfalso.
    assert (In key state_keys) as K by (apply HK, keys_in; eauto). unfold state_keys in K. cbn [map In] in K.
    repeat (destruct K as [K|K]; [now subst key|]). exact K. }
  destruct R as (s' & Hs). rewrite Hs. f_equal. destruct (FW s' Hs) as (_ & G0 & G1 & G2 & G3 & G4 & G5 & G6 & G7 & G8 & G9 & G10 & G11 & G12 & G13 & G14 & G15).
  pose proof (defaults_once _ _ _ _ _ _ Hn (exact_once _ _ _ _ E0) G0 H0) as A0.
  pose proof (optional_once _ _ _ _ _ Hn (exact_once _ _ _ _ E1) G1 H1) as A1.
  pose proof (optional_once _ _ _ _ _ Hn (exact_once _ _ _ _ E2) G2 H2) as A2.
  pose proof (optional_once _ _ _ _ _ Hn (exact_once _ _ _ _ E3) G3 H3) as A3.
  pose proof (optional_once _ _ _ _ _ Hn (exact_once _ _ _ _ E4) G4 H4) as A4.
  pose proof (optional_once _ _ _ _ _ Hn (exact_once _ _ _ _ E5) G5 H5) as A5.
  pose proof (optional_once _ _ _ _ _ Hn (exact_once _ _ _ _ E6) G6 H6) as A6.
  pose proof (optional_once _ _ _ _ _ Hn (exact_once _ _ _ _ E7) G7 H7) as A7.
  pose proof (optional_once _ _ _ _ _ Hn (exact_once _ _ _ _ E8) G8 H8) as A8.
  pose proof (optional_once _ _ _ _ _ Hn (exact_once _ _ _ _ E9) G9 H9) as A9.
  pose proof (optional_once _ _ _ _ _ Hn (exact_once _ _ _ _ E10) G10 H10) as A10.
  pose proof (optional_once _ _ _ _ _ Hn (exact_once _ _ _ _ E11) G11 H11) as A11.
  pose proof (optional_once _ _ _ _ _ Hn (exact_once _ _ _ _ E12) G12 H12) as A12.
  pose proof (optional_once _ _ _ _ _ Hn (exact_once _ _ _ _ E13) G13 H13) as A13.
  pose proof (optional_once _ _ _ _ _ Hn (exact_once _ _ _ _ E14) G14 H14) as A14.
  pose proof (optional_once _ _ _ _ _ Hn (exact_once _ _ _ _ E15) G15 H15) as A15.
  clear -A0 A1 A2 A3 A4 A5 A6 A7 A8 A9 A10 A11 A12 A13 A14 A15. destruct s, s'. cbn in A0, A1, A2, A3, A4, A5, A6, A7, A8, A9, A10, A11, A12, A13, A14, A15. subst. reflexivity.
Qed.
Lemma state_ok : forall v, one_each v -> forall s, y_state F parse_f64 k v = Ok s <-> is_state v s.
Proof.
  apply (yaml_deep (fun v => one_each v -> forall s, y_state F parse_f64 k v = Ok s <-> is_state v s)). intros v _ IH Hv s.
  destruct v; try (split; [discriminate|intros H; inversion H]). cbn [y_state]. rewrite obind_ok.
  assert (ST : forall s, foldo entry (empty_state F) m = Ok s <-> fields_of m s).
  { apply state_fields; [exact Hv|]. intros u w key Hi Hw. eapply IH; [reflexivity|exact Hi|exact Hw|].
    eapply one_each_inside; [|exact Hw]. eapply one_each_map; eassumption. }
  split.
  - intros (s' & Hf & Hr). apply ST in Hf. destruct (parts_empty (ss_type F s')) eqn:E; [discriminate|]. injection Hr as ->.
    destruct Hf as (HK & H0 & H1 & H2 & H3 & H4 & H5 & H6 & H7 & H8 & H9 & H10 & H11 & H12 & H13 & H14 & H15).
    apply (filled _ _ _ H0) in E. destruct E as [E D]. constructor; assumption.
  - intros H. inversion H; subst. exists s.
    assert (FO : fields_of m s). { unfold fields_of. repeat (split; [first [assumption|now apply required_default]|]). assumption. }
    split; [now apply ST|]. rewrite (proj2 (filled m (chars "type") (ss_type F s) (proj1 (proj2 FO)))); auto.
Qed.
Lemma workflow_ok m w : one_each (YMap m) -> (y_workflow F parse_f64 k m = Ok w <-> is_workflow F parse_f64 k m w).
Proof.
  intros Hm. pose proof (one_each_keys m Hm) as Hn. unfold y_workflow.
  assert (S1 : sets (spec_entry F parse_f64 k) fst (chars "startAt") (y_text k)) by sets_tac (@spec_entry).
  assert (S2 : sets (spec_entry F parse_f64 k) snd (chars "states") (fun v => match v with YMap m => y_states F (y_state F parse_f64 k) m | _ => Err YFormat end))
    by sets_tac (@spec_entry).
  pose proof (exact_text m (chars "startAt")) as E1.
  assert (E2 : exact_on m (chars "states") (fun v => match v with YMap m => y_states F (y_state F parse_f64 k) m | _ => Err YFormat end) (is_mapping (are_states F parse_f64 k))).
  { intros v Hv. apply mapping_ok. intros m' -> b'. apply states_ok. intros key u Hu. apply state_ok. eapply one_each_map; [|exact Hu]. eapply one_each_map; eassumption. }
  assert (FW : forall c, foldo (spec_entry F parse_f64 k) ([], []) m = Ok c -> is_workflow F parse_f64 k m c).
  { intros c' Hf. split; [|split; [exact (to_defaults _ _ _ _ _ _ _ _ S1 Hn Hf E1)|exact (to_defaults _ _ _ _ _ _ _ _ S2 Hn Hf E2)]].
    intros key Hi. apply keys_in in Hi. destruct Hi as (v & Hi). destruct (fold_ran _ _ _ _ Hf _ _ Hi) as (y & y' & Hy). revert Hy.
    unfold spec_entry. repeat match goal with |- context [text_eqb key (chars ?b)] => destruct (text_eqb_spec key (chars b)) as [->|?]; [intros _; cbv; tauto|] end. discriminate. }
  split; [apply FW|]. intros (HK & H1 & H2).
  assert (R : exists w', foldo (spec_entry F parse_f64 k) ([], []) m = Ok w').
  { runs_tac (@spec_entry) Hn. exfalso. assert (In key [chars "startAt"; chars "states"]) as K by (apply HK, keys_in; eauto). destruct K as [K|[K|[]]]; now subst key. }
  destruct R as (w' & Hw). rewrite Hw. f_equal. destruct (FW w' Hw) as (_ & G1 & G2). destruct w, w'. cbn in *. once_tac.
Qed.
End Params.
