From Verif Require Import Base Chars SubstModel SubstProofs SubstProps ResolveModel BlueprintModel WfYamlModel WfYamlSpec WfYamlProofs WfYamlProps
  SpecYamlModel SpecYamlSpec SpecJsonModel SpecJsonSpec.
Local Open Scope list_scope.

(** * Computations that do not panic and give exactly what a relation says *)
Definition okis {A} (x : outcome yerr A) (P : A -> Prop) : Prop := x <> Panic /\ forall a, x = Ok a <-> P a.
Definition good {A} (f : yaml -> outcome yerr A) (R : yaml -> A -> Prop) (v : yaml) : Prop := okis (f v) (R v).

Lemma okis_iff {A} (x : outcome yerr A) (P Q : A -> Prop) : (forall a, P a <-> Q a) -> okis x P -> okis x Q.
Proof. intros H [S E]. split; [exact S|]. intros a. rewrite E. apply H. Qed.
Lemma okis_ret {A} (a : A) : okis (Ok a) (fun b => b = a).
Proof. split; [discriminate|]. intros b. split; congruence. Qed.
Lemma okis_err {A} e (P : A -> Prop) : (forall a, ~ P a) -> okis (Err e) P.
Proof. intros H. split; [discriminate|]. intros a. split; [discriminate|intros Ha; now elim (H a)]. Qed.
Lemma okis_bind {A B} (x : outcome yerr A) (f : A -> outcome yerr B) P (Q : A -> B -> Prop) :
  okis x P -> (forall a, P a -> okis (f a) (Q a)) -> okis (obind x f) (fun b => exists a, P a /\ Q a b).
Proof.
  intros [S E] H. split.
  - destruct x as [a|e|]; cbn; [|discriminate|now elim S]. apply H, E. reflexivity.
  - intros b. rewrite obind_ok. split; intros (a & Ha & Hb); exists a.
    + pose proof (proj1 (E a) Ha) as Ha'. split; [exact Ha'|]. now apply (H a Ha').
    + split; [now apply E|]. now apply (H a Ha).
Qed.
Lemma okis_map {A B} (g : A -> B) (x : outcome yerr A) P : okis x P -> okis (omap g x) (fun b => exists a, P a /\ b = g a).
Proof.
  intros [S E]. split; [destruct x; cbn; [discriminate..|now elim S]|]. intros b. rewrite omap_ok.
  split; intros (a & Ha & Hb); exists a; (split; [now apply E|exact Hb]).
Qed.
Lemma okis_none {A} (x : outcome yerr A) P : okis x P -> (forall a, ~ P a) -> exists e, x = Err e.
Proof. intros [S E] H. destruct x as [a|e|]; [|eauto|now elim S]. elim (H a). now apply E. Qed.
Lemma okis_else {A} (x y : outcome yerr A) P Q : okis x P -> okis y Q -> okis (j_else x y) (fun a => P a \/ (forall b, ~ P b) /\ Q a).
Proof.
  intros [Sx Ex] [Sy Ey]. destruct x as [a|e|]; cbn [j_else]; [| |now elim Sx].
  - split; [discriminate|]. intros b. rewrite Ex. split; [now left|]. intros [H|[H _]]; [exact H|]. elim (H a). now apply Ex.
  - split; [exact Sy|]. intros b. rewrite Ey. split.
    + intros H. right. split; [|exact H]. intros c Hc. apply Ex in Hc. discriminate.
    + intros [H|[_ H]]; [|exact H]. apply Ex in H. discriminate.
Qed.

(** * Structs *)
Fixpoint nodupb (l : list text) : bool := match l with [] => true | a :: l' => negb (existsb (text_eqb a) l') && nodupb l' end.
Definition known (names : list text) (key : text) : bool := existsb (text_eqb key) names && nodupb names.
Lemma exists_in key names : existsb (text_eqb key) names = true <-> In key names.
Proof. rewrite existsb_exists. split; [intros (x & Hx & E); apply teq in E; now subst|]. intros H. exists key. split; [exact H|now apply teq]. Qed.
Lemma nodupb_ok l : nodupb l = true -> NoDup l.
Proof.
  induction l as [|a l IH]; cbn; [constructor|]. intros H. apply andb_prop in H as [H1 H2]. constructor; [|now apply IH].
  intros Hi. apply exists_in in Hi. rewrite Hi in H1. discriminate.
Qed.
Lemma count_cons key e m : count_key key (e :: m) = (match fst e with Some key' => if text_eqb key' key then 1 else 0 | None => 0 end) + count_key key m.
Proof. unfold count_key. cbn [filter]. destruct (fst e) as [key'|]; [destruct (text_eqb key' key)|]; reflexivity. Qed.
Lemma count_none key m : count_key key m = 0 <-> ~ In key (keys_of m).
Proof.
  induction m as [|[o v] m IH]; [now split; [intros _ []|]|]. rewrite count_cons. change (keys_of ((o, v) :: m)) with ((match o with Some x => [x] | None => [] end) ++ keys_of m).
  cbn [fst]. destruct o as [key'|]; cbn [app]; [|exact IH]. destruct (text_eqb_spec key' key) as [->|N]; cbn.
  - split; [discriminate|]. intros H. elim H. now left.
  - rewrite IH. split; [intros H [E|Hi]; [exact (N E)|exact (H Hi)]|tauto].
Qed.
Lemma keys_app a b : keys_of (a ++ b) = keys_of a ++ keys_of b.
Proof. apply flat_map_app. Qed.
Lemma count_app key a b : count_key key (a ++ b) = count_key key a + count_key key b.
Proof. unfold count_key. now rewrite filter_app, app_length. Qed.
Lemma count_once key m : count_key key m <= 1 <-> occurs_once key m.
Proof.
  unfold occurs_once. split.
  - intros H pre v post -> Hi. rewrite count_app, count_cons in H. cbn [fst] in H. rewrite (proj2 (teq key key) eq_refl) in H.
    rewrite keys_app in Hi. apply in_app_or in Hi. destruct Hi as [Hi|Hi].
    + destruct (count_key key pre) eqn:E; [apply count_none in E; exact (E Hi)|lia].
    + destruct (count_key key post) eqn:E; [apply count_none in E; exact (E Hi)|lia].
  - induction m as [|[o v] m IH]; intros H; [cbn; lia|]. rewrite count_cons. cbn [fst].
    assert (IH' : count_key key m <= 1).
    { apply IH. intros pre w post -> Hi. apply (H ((o, v) :: pre) w post eq_refl).
      change (((o, v) :: pre) ++ post) with ((o, v) :: (pre ++ post)). unfold keys_of. cbn [flat_map]. apply in_or_app. right. exact Hi. }
    destruct o as [key'|]; [|exact IH']. destruct (text_eqb_spec key' key) as [->|N]; [|exact IH'].
    specialize (H [] v m eq_refl). cbn [app] in H. apply count_none in H. rewrite H. lia.
Qed.
Lemma members_ok names v : members names v = true <-> is_struct names v.
Proof.
  unfold is_struct. destruct v as [t|z|t|b| |l|m]; cbn [members]; try (split; [discriminate|intros [(? & ? & _)|(? & ? & _)]; discriminate]).
  - rewrite Nat.eqb_eq. split; [intros H; right; eauto|]. intros [(? & ? & _)|(? & [= <-] & H)]; [discriminate|exact H].
  - rewrite forallb_forall. split.
    + intros H. left. exists m. split; [reflexivity|]. intros key Hi. apply count_once, Nat.leb_le, H, Hi.
    + intros [(? & [= <-] & H)|(? & ? & _)]; [|discriminate]. intros key Hi. apply Nat.leb_le, count_once, H, Hi.
Qed.
Lemma once_same key m v w : occurs_once key m -> In (Some key, v) m -> In (Some key, w) m -> v = w.
Proof.
  intros H Hv Hw. apply in_split in Hv. destruct Hv as (pre & post & ->). apply in_app_or in Hw.
  assert (X : In (Some key, w) (pre ++ post) \/ v = w).
  { destruct Hw as [Hw|[E|Hw]]; [left; apply in_or_app; now left|right; now injection E|left; apply in_or_app; now right]. }
  destruct X as [X|X]; [|exact X]. elim (H pre v post eq_refl). apply keys_in. eauto.
Qed.
Lemma combine_once (names : list text) (l : list yaml) key v w : NoDup names -> In (key, v) (combine names l) -> In (key, w) (combine names l) -> v = w.
Proof.
  revert l. induction names as [|a names IH]; intros [|x l] Hn; cbn; try tauto. apply NoDup_cons_iff in Hn as [Ha Hn].
  intros [E|Hv] [E'|Hw].
  - congruence.
  - injection E as -> ->. apply in_combine_l in Hw. now elim Ha.
  - injection E' as -> ->. apply in_combine_l in Hv. now elim Ha.
  - eapply IH; eassumption.
Qed.
Lemma has_once names v key w w' : is_struct names v -> known names key = true -> has names v key w -> has names v key w' -> w = w'.
Proof.
  unfold known. intros S K. apply andb_prop in K as [K N]. apply exists_in in K. apply nodupb_ok in N.
  intros [(m & -> & Hi)|(l & -> & Hi)] [(m' & E & Hi')|(l' & E & Hi')]; try discriminate; injection E as <-.
  - destruct S as [(? & [= <-] & S)|(? & ? & _)]; [|discriminate]. eapply once_same; eauto.
  - eapply combine_once; eauto.
Qed.
Lemma has_inside names v key w : has names v key w -> inside w v.
Proof. intros [(m & -> & Hi)|(l & -> & Hi)]; [eapply in_map|eapply in_seq; [eapply in_combine_r|]]; eauto using inside. Qed.
(** What [member] does: it reads the first value it finds. *)
Lemma member_is {A} names key (f : yaml -> outcome yerr A) v :
  (exists w, has names v key w /\ member names key f v = omap Some (f w)) \/ ((forall w, ~ has names v key w) /\ member names key f v = Ok None).
Proof.
  destruct v as [t|z|t|b| |l|m]; try (right; split; [intros w [(? & ? & _)|(? & ? & _)]; discriminate|reflexivity]).
  - cbn [member]. assert (G : forall names', incl names' names -> (exists w, In (key, w) (combine names' l) /\
      (fix go (l : list yaml) (names : list text) {struct l} :=
         match l, names with w :: l', key' :: names' => if text_eqb key' key then omap Some (f w) else go l' names' | _, _ => Ok None end) l names' = omap Some (f w)) \/
      ((forall w, ~ In (key, w) (combine names' l)) /\
      (fix go (l : list yaml) (names : list text) {struct l} :=
         match l, names with w :: l', key' :: names' => if text_eqb key' key then omap Some (f w) else go l' names' | _, _ => Ok None end) l names' = Ok None)).
    { induction l as [|x l IH]; intros [|a names'] Hi; cbn [combine]; try (right; split; [intros w []|reflexivity]).
      destruct (text_eqb_spec a key) as [->|N]; [left; exists x; split; [now left|reflexivity]|].
      destruct (IH names') as [(w & Hw & E)|[Hw E]]; [intros y Hy; apply Hi; now right|left; exists w; split; [now right|exact E]|].
      right. split; [|exact E]. intros w [E'|Hw']; [now injection E'|exact (Hw w Hw')]. }
    destruct (G names (incl_refl _)) as [(w & Hw & E)|[Hw E]].
    + left. exists w. split; [right; eauto|exact E].
    + right. split; [|exact E]. intros w [(? & ? & _)|(l' & [= <-] & H)]; [discriminate|exact (Hw w H)].
  - cbn [member]. induction m as [|[o x] m IH]; [right; split; [intros w [(? & [= <-] & [])|(? & ? & _)]; discriminate|reflexivity]|].
    destruct o as [key'|].
    + destruct (text_eqb_spec key' key) as [->|N]; [left; exists x; split; [left; eexists; split; [reflexivity|now left]|reflexivity]|].
      destruct IH as [(w & Hw & E)|[Hw E]].
      * left. exists w. split; [|exact E]. destruct Hw as [(? & [= <-] & Hw)|(? & ? & _)]; [|discriminate]. left. eexists. split; [reflexivity|now right].
      * right. split; [|exact E]. intros w [(? & [= <-] & H)|(? & ? & _)]; [|discriminate]. destruct H as [H|H]; [now injection H|]. apply (Hw w). left. eauto.
    + destruct IH as [(w & Hw & E)|[Hw E]].
      * left. exists w. split; [|exact E]. destruct Hw as [(? & [= <-] & Hw)|(? & ? & _)]; [|discriminate]. left. eexists. split; [reflexivity|now right].
      * right. split; [|exact E]. intros w [(? & [= <-] & H)|(? & ? & _)]; [|discriminate]. destruct H as [H|H]; [discriminate|]. apply (Hw w). left. eauto.
Qed.
Lemma req_ok {A} names key (f : yaml -> outcome yerr A) R v : is_struct names v -> known names key = true ->
  (forall w, has names v key w -> good f R w) -> okis (j_req names key f v) (field_req names v key R).
Proof.
  intros S K H. unfold j_req, field_req. destruct (member_is names key f v) as [(w & Hw & ->)|[Hw ->]].
  - destruct (H w Hw) as [Hs He]. split; [destruct (f w); cbn; [discriminate..|now elim Hs]|]. intros a.
    transitivity (f w = Ok a); [destruct (f w); cbn; split; congruence|]. rewrite He. split; [eauto|]. intros (w' & Hw' & Ha).
    now rewrite (has_once _ _ _ _ _ S K Hw Hw').
  - cbn. apply okis_err. intros a (w & Hi & _). exact (Hw w Hi).
Qed.
Lemma opt_ok {A} names key (f : yaml -> outcome yerr A) R v : is_struct names v -> known names key = true ->
  (forall w, has names v key w -> good f R w) -> okis (j_opt names key f v) (field_opt names v key R).
Proof.
  intros S K H. unfold j_opt, field_opt. destruct (member_is names key (nullable f) v) as [(w & Hw & ->)|[Hw ->]].
  - assert (N : forall w', has names v key w' -> w' = w) by (intros w' Hw'; exact (has_once _ _ _ _ _ S K Hw' Hw)).
    destruct (H w Hw) as [Hs He]. assert (D : w = YNull \/ w <> YNull) by (destruct w; [right; discriminate..|now left|right; discriminate|right; discriminate]).
    destruct D as [->|D].
    + cbn. split; [discriminate|]. intros o. split.
      * intros [= <-]. right. split; [exact N|reflexivity].
      * intros [(w' & a & Hw' & Hn & _)|[_ ->]]; [elim Hn; now apply N|reflexivity].
    + assert (X : nullable f w = omap Some (f w)) by (destruct w; [reflexivity..|now elim D|reflexivity|reflexivity]). rewrite X.
      split; [destruct (f w); cbn; [discriminate..|now elim Hs]|]. intros o. split.
      * destruct (f w) as [a|e|] eqn:E; cbn; try discriminate. intros [= <-]. left. exists w, a. split; [exact Hw|]. split; [exact D|]. split; [now apply He|reflexivity].
      * intros [(w' & a & Hw' & Hn & Ha & ->)|[Hx ->]]; [|elim D; now apply Hx]. rewrite (N w' Hw') in Ha. apply He in Ha. rewrite Ha. reflexivity.
  - cbn. split; [discriminate|]. intros o. split.
    + intros [= <-]. right. split; [|reflexivity]. intros w Hi. now elim (Hw w).
    + intros [(w & a & Hi & _)|[_ ->]]; [now elim (Hw w)|reflexivity].
Qed.
Lemma struct_ok {A} names v (body : outcome yerr A) (P : A -> Prop) : (is_struct names v -> okis body P) -> okis (j_struct names v body) (fun a => is_struct names v /\ P a).
Proof.
  intros H. unfold j_struct. destruct (members names v) eqn:E.
  - apply members_ok in E. destruct (H E) as [S X]. split; [exact S|]. intros a. rewrite X. tauto.
  - apply okis_err. intros a [S _]. apply members_ok in S. congruence.
Qed.

(** * Lists and maps *)
Lemma list_ok {A} (f : yaml -> outcome yerr A) R v : (forall l w, v = YSeq l -> In w l -> good f R w) -> good (j_list f) (is_array R) v.
Proof.
  intros H. unfold good, j_list. destruct v as [t|z|t|b| |l|m]; try (apply okis_err; intros a (? & ? & _); discriminate). split.
  - apply safe_collect. intros w Hw. apply safe_map. exact (proj1 (H l w eq_refl Hw)).
  - intros r. rewrite (collect_all R); [|intros w Hw; exact (proj2 (H l w eq_refl Hw))]. unfold is_array. split; [eauto|]. now intros (? & [= <-] & X).
Qed.
Lemma put_kept {A} key (a : A) r : filter (fun e => negb (text_eqb (fst e) key)) r ++ [(key, a)] = put key a r.
Proof. reflexivity. Qed.
Fixpoint puts {A} (r : list (text * A)) (l : list (text * A)) : list (text * A) := match l with [] => r | (key, a) :: l' => puts (put key a r) l' end.
Lemma puts_last {A} (l : list (text * A)) : forall r, puts r l = filter (fun e => negb (existsb (fun e' => text_eqb (fst e') (fst e)) l)) r ++ last_ones l.
Proof.
  induction l as [|[key a] l IH]; intros r; cbn [puts last_ones existsb].
  - rewrite app_nil_r. clear. induction r as [|x r IHr]; [reflexivity|]. cbn in *. now f_equal.
  - rewrite IH. unfold put. rewrite filter_app. cbn [filter fst]. rewrite <- app_assoc.
    assert (X : filter (fun e : text * A => negb (existsb (fun e' : text * A => text_eqb (fst e') (fst e)) l)) (filter (fun e : text * A => negb (text_eqb (fst e) key)) r) =
                filter (fun e : text * A => negb (text_eqb key (fst e) || existsb (fun e' : text * A => text_eqb (fst e') (fst e)) l)) r).
    { clear. induction r as [|x r IHr]; cbn [filter]; [reflexivity|].
      destruct (text_eqb_spec (fst x) key) as [E|N].
      - rewrite (proj2 (teq key (fst x)) (eq_sym E)). cbn [negb orb]. exact IHr.
      - destruct (text_eqb_spec key (fst x)) as [E|_]; [now elim N|]. cbn [negb orb filter]. now rewrite IHr. }
    rewrite X. f_equal. destruct (existsb _ l); reflexivity.
Qed.
Lemma fold_puts {A} (f : yaml -> outcome yerr A) R m : (forall key w, In (key, w) m -> good f R w) -> forall r,
  okis (foldo (fun r e => match e with (Some key, w) => let! a := f w in Ok (put key a r) | (None, _) => Err YFormat end) r m)
    (fun r' => exists all, Forall2 (fun a b => fst a = Some (fst b) /\ R (snd a) (snd b)) m all /\ r' = puts r all).
Proof.
  induction m as [|[o w] m IH]; intros H r.
  - cbn. split; [discriminate|]. intros a. split; [intros [= <-]; exists []; split; [constructor|reflexivity]|]. intros (all & Ha & ->). now inversion Ha.
  - cbn [foldo]. fold (foldo (fun r e => match e with (Some key, w) => let! a := f w in Ok (put key a r) | (None, _) => Err YFormat end)).
    destruct o as [key|]; [|cbn; apply okis_err; intros a (all & Ha & _); inversion Ha as [|? ? ? ? [E _]]; discriminate].
    eapply okis_iff; [|eapply okis_bind; [eapply okis_bind; [exact (H (Some key) w (or_introl eq_refl))|intros a _; apply okis_ret]|intros r1 _; exact (IH (fun key' w' Hi => H key' w' (or_intror Hi)) r1)]].
    intros r'. split.
    + intros (r1 & (a & Ha & ->) & all & Hall & ->). exists ((key, a) :: all). split; [constructor; [split; [reflexivity|exact Ha]|exact Hall]|reflexivity].
    + intros (all & Hall & ->). inversion Hall as [|? [key' a] ? all' [E Ha] Hall']; subst. cbn in E, Ha. injection E as <-.
      exists (put key a r). split; [eauto|]. exists all'. split; [exact Hall'|reflexivity].
Qed.
Lemma map_fold_ok {A} (f : yaml -> outcome yerr A) R m : (forall key w, In (key, w) m -> good f R w) ->
  okis (foldo (fun r e => match e with (Some key, w) => let! a := f w in Ok (put key a r) | (None, _) => Err YFormat end) [] m)
    (fun r => exists all, Forall2 (fun a b => fst a = Some (fst b) /\ R (snd a) (snd b)) m all /\ r = last_ones all).
Proof.
  intros H. eapply okis_iff; [|exact (fold_puts f R m H [])]. intros r. cbv beta. setoid_rewrite puts_last. cbn [filter app]. reflexivity.
Qed.
Lemma map_ok {A} (f : yaml -> outcome yerr A) R v : (forall m key w, v = YMap m -> In (key, w) m -> good f R w) -> good (j_map f) (is_object R) v.
Proof.
  intros H. unfold good, j_map. destruct v as [t|z|t|b| |l|m]; try (apply okis_err; intros a (? & ? & ? & _); discriminate).
  eapply okis_iff; [|exact (map_fold_ok f R m (fun key w Hi => H m key w eq_refl Hi))]. intros r. unfold is_object. split.
  - intros (all & Ha & ->). exists m, all. auto.
  - intros (m' & all & [= <-] & Ha & ->). eauto.
Qed.
Lemma string_ok v : good j_string is_string v.
Proof. unfold good, is_string. destruct v; try (apply okis_err; discriminate). cbn. split; [discriminate|]. intros a. split; congruence. Qed.
Lemma plain_bool_ok v : good j_plain_bool is_plain_bool v.
Proof. unfold good, is_plain_bool. destruct v; try (apply okis_err; discriminate). cbn. split; [discriminate|]. intros a. split; congruence. Qed.

Section Params.
Variable F : Type.
Variable parse_f64 : text -> option F.
Variable k : classes.
Hypothesis Hk : sane k.
Variable json_text : text -> option text.
Variable of_int : Z -> F.
Notation j_node := (j_node F parse_f64 k json_text).
Notation is_value := (is_value F parse_f64 k json_text).

Lemma jtext_ok v : good (j_text k) (is_text k) v.
Proof.
  unfold good. destruct v; try (apply okis_err; intros a (? & ? & _); discriminate). cbn [j_text]. split.
  - exact (WfYamlProps.subs_safe F parse_f64 k Hk t).
  - intros ps. exact (text_ok k (YStr t) ps).
Qed.
Lemma text_node_ok t : okis (match json_string_node F k json_text t with Ok n => Ok n | Err _ => Err YFormat | Panic => Panic end) (text_node F k json_text t).
Proof.
  unfold json_string_node. destruct (json_text t) as [u|] eqn:E.
  - pose proof (C53_never_panics k Hk u) as P. destruct (parse_substitutions k u) as [ps|e|] eqn:Ep; [| |now elim P].
    + split; [discriminate|]. intros n. split; [intros [= <-]; econstructor 2; eassumption|]. intros H. inversion H as [? X|? ? ? X Y]; subst.
      * elim (X u ps E Ep).
      * congruence.
    + split; [discriminate|]. intros n. split; [intros [= <-]; constructor; congruence|]. intros H. inversion H as [? X|? ? ? X Y]; subst; [reflexivity|congruence].
  - split; [discriminate|]. intros n. split; [intros [= <-]; constructor; congruence|]. intros H. inversion H as [? X|? ? ? X Y]; subst; [reflexivity|congruence].
Qed.
Lemma node_ok : forall v, good j_node is_value v.
Proof.
  apply yaml_deep. intros v IHl IHm. unfold good. destruct v as [t|z|t|b| |l|m]; cbn [SpecJsonModel.j_node].
  - eapply okis_iff; [|apply text_node_ok]. intros n. split; [now constructor|]. intros H. now inversion H.
  - split; [discriminate|]. intros n. split; [intros [= <-]; constructor|]. intros H. now inversion H.
  - destruct (parse_f64 t) eqn:E; [|apply okis_err; intros n H; inversion H; congruence].
    split; [discriminate|]. intros n. split; [intros [= <-]; now constructor|]. intros H. inversion H. congruence.
  - split; [discriminate|]. intros n. split; [intros [= <-]; constructor|]. intros H. now inversion H.
  - apply okis_err. intros n H. inversion H.
  - eapply okis_iff; [|apply okis_map; exact (list_ok j_node is_value (YSeq l) (fun l' w E Hw => IHl l' w w E Hw (in_here w)))].
    intros n. split; [intros (r & (l' & [= <-] & Hr) & ->); now constructor|]. intros H. inversion H; subst. eexists. split; [eexists; split; [reflexivity|eassumption]|reflexivity].
  - eapply okis_iff; [|apply okis_map; exact (map_fold_ok j_node is_value m (fun key w Hi => IHm m key w w eq_refl Hi (in_here w)))].
    intros n. split; [intros (r & (all & Ha & ->) & ->); now constructor|]. intros H. inversion H; subst. eexists. split; [eexists; split; [eassumption|reflexivity]|reflexivity].
Qed.
Lemma scalar_ok v : good (j_scalar F parse_f64 of_int) (is_scalar_value F parse_f64 of_int) v.
Proof.
  unfold good. destruct v as [t|z|t|b| |l|m]; cbn [j_scalar]; try (apply okis_err; intros a H; now inversion H).
  - split; [discriminate|]. intros a. split; [intros [= <-]; constructor|]. intros H. now inversion H.
  - destruct (Z.leb (- 2 ^ 63) z && Z.ltb z (2 ^ 63))%Z eqn:E.
    + apply andb_prop in E as [E1 E2]. apply Z.leb_le in E1. apply Z.ltb_lt in E2. split; [discriminate|]. intros a. split; [intros [= <-]; constructor; lia|].
      intros H. inversion H; subst; [reflexivity|lia].
    + split; [discriminate|]. intros a. assert (N : ~ (- 2 ^ 63 <= z < 2 ^ 63)%Z).
      { intros [N1 N2]. apply Z.leb_le in N1. apply Z.ltb_lt in N2. rewrite N1, N2 in E. discriminate. }
      split; [intros [= <-]; now constructor|]. intros H. inversion H; subst; [tauto|reflexivity].
  - destruct (parse_f64 t) eqn:E; [|apply okis_err; intros a H; inversion H; congruence].
    split; [discriminate|]. intros a. split; [intros [= <-]; now constructor|]. intros H. inversion H. congruence.
  - split; [discriminate|]. intros a. split; [intros [= <-]; constructor|]. intros H. now inversion H.
Qed.
Lemma texts_ok v : good (j_list (j_text k)) (is_array (is_text k)) v.
Proof. apply list_ok. intros. apply jtext_ok. Qed.
Lemma textmap_ok v : good (j_map (j_text k)) (is_object (is_text k)) v.
Proof. apply map_ok. intros. apply jtext_ok. Qed.
Lemma nodes_ok v : good (j_list j_node) (is_array is_value) v.
Proof. apply list_ok. intros. apply node_ok. Qed.
Lemma nodemap_ok v : good (j_map j_node) (is_object is_value) v.
Proof. apply map_ok. intros. apply node_ok. Qed.
Lemma stringmap_ok v : good (j_map j_string) (is_object is_string) v.
Proof. apply map_ok. intros. apply string_ok. Qed.
Lemma scalars_ok v : good (j_list (j_scalar F parse_f64 of_int)) (is_array (is_scalar_value F parse_f64 of_int)) v.
Proof. apply list_ok. intros. apply scalar_ok. Qed.

(** One struct: its fields one after the other, then the record *)
Ltac field_tac S extra := first
  [ eapply opt_ok; [exact S|vm_compute; reflexivity|intros ? _; solve [extra|apply jtext_ok|apply node_ok|apply texts_ok|apply textmap_ok|apply nodes_ok|apply nodemap_ok|apply stringmap_ok|apply string_ok|apply plain_bool_ok|apply scalar_ok|apply scalars_ok]]
  | eapply req_ok; [exact S|vm_compute; reflexivity|intros ? _; solve [extra|apply jtext_ok|apply node_ok|apply texts_ok|apply textmap_ok|apply nodes_ok|apply nodemap_ok|apply stringmap_ok|apply string_ok|apply plain_bool_ok|apply scalar_ok|apply scalars_ok]] ].
Ltac body_tac S extra := repeat (eapply okis_bind; [field_tac S extra|intros ? _]); first [apply okis_ret|field_tac S extra].
Ltac record_tac :=
  let x := fresh "x" in let H := fresh "H" in let St := fresh "St" in
  intros x; split;
  [ intros [St H]; split; [exact St|]; repeat (destruct H as (? & ? & H)); subst; cbn; repeat match goal with |- _ /\ _ => split end; assumption
  | intros [St H]; split; [exact St|]; destruct x; cbn in H; repeat match type of H with _ /\ _ => let H1 := fresh "H1" in destruct H as [H1 H] end; repeat (eexists; split; [eassumption|]); reflexivity ].
Ltac struct_tac extra :=
  unfold good; let S := fresh "S" in
  eapply okis_iff; [|eapply struct_ok; intros S; body_tac S extra]; record_tac.

Lemma var_ok v : good (j_var F parse_f64 of_int) (json_var F parse_f64 of_int) v.
Proof. struct_tac fail. Qed.

Lemma vars_ok v : good (j_vars F parse_f64 of_int) (is_object (json_var F parse_f64 of_int)) v.
Proof. apply map_ok. intros. apply var_ok. Qed.
Lemma shared_ok v : good (j_shared F parse_f64 k json_text) (json_shared F parse_f64 k json_text) v.
Proof. struct_tac fail. Qed.
Lemma handler_ok v : good (j_handler F parse_f64 k json_text) (json_handler F parse_f64 k json_text) v.
Proof. struct_tac fail. Qed.
Lemma schedule_ok v : good (j_schedule k) (json_schedule k) v.
Proof. unfold good. apply struct_ok. intros S. field_tac S fail. Qed.
Lemma event_type_ok v : good j_event_type json_event_type v.
Proof.
  assert (E : forall t, okis (event_type_of t) (fun ty => In (t, ty) event_names)).
  { intros t. unfold event_type_of. destruct (text_eqb_spec t (chars "objectStorage")) as [->|N1].
    { split; [discriminate|]. intros ty. split; [intros [= <-]; now left|]. intros [X|[X|[X|[]]]]; injection X; congruence. }
    destruct (text_eqb_spec t (chars "dbStream")) as [->|N2].
    { split; [discriminate|]. intros ty. split; [intros [= <-]; right; now left|]. intros [X|[X|[X|[]]]]; injection X; congruence. }
    destruct (text_eqb_spec t (chars "dataStream")) as [->|N3].
    { split; [discriminate|]. intros ty. split; [intros [= <-]; right; right; now left|]. intros [X|[X|[X|[]]]]; injection X; congruence. }
    apply okis_err. intros ty [X|[X|[X|[]]]]; injection X; congruence. }
  unfold good, json_event_type. destruct v as [t|z|t|b| |l|m]; try (apply okis_err; intros ty (? & _ & [H|H]); discriminate).
  - eapply okis_iff; [|exact (E t)]. intros ty. split; [intros H; exists t; auto|]. now intros (? & H & [[= <-]|D]).
  - cbn [j_event_type]. destruct m as [|[o w] m]; [apply okis_err; intros ty (? & _ & [H|H]); discriminate|].
    destruct o as [t|]; [|destruct m; apply okis_err; intros ty (? & _ & [H|H]); discriminate].
    destruct w; try (apply okis_err; intros ty (? & _ & [H|H]); discriminate).
    destruct m as [|e m]; [|apply okis_err; intros ty (? & _ & [H|H]); discriminate].
    eapply okis_iff; [|exact (E t)]. intros ty. split; [intros H; exists t; auto|]. now intros (? & H & [D|[= <-]]).
Qed.
Lemma storage_ok v : good (j_storage k) (json_storage k) v.
Proof. struct_tac fail. Qed.
Lemma stream_ok id v : id = chars "dbStreamId" \/ id = chars "dataStreamId" -> good (j_stream F parse_f64 k json_text id) (json_stream F parse_f64 k json_text id) v.
Proof.
  intros [-> | ->]; unfold good; (eapply okis_iff; [|eapply struct_ok; intros S; body_tac S fail]); intros x; cbv zeta.
  1,2: split; intros [S H]; split; try exact S.
  1,3: destruct H as (? & ? & ? & ? & ? & ? & ? & ? & ->); auto.
  1,2: destruct x as [i [b p g]], H as (? & ? & ? & ?); cbn in *; repeat (eexists; split; [eassumption|]); reflexivity.
Qed.
Lemma event_source_ok v : good (j_event_source F parse_f64 k json_text) (json_event_source F parse_f64 k json_text) v.
Proof.
  unfold good, j_event_source. eapply okis_iff; [|apply okis_else; [apply okis_map, storage_ok|apply okis_else; [apply okis_map, stream_ok; now left|apply okis_map, stream_ok; now right]]].
  intros e. cbv beta. split.
  - intros [(s & Hs & ->)|[N [(s & Hs & ->)|[N' (s & Hs & ->)]]]].
    + now constructor.
    + constructor; [|exact Hs]. intros x Hx. apply (N (FromStorage F x)). eauto.
    + constructor; [| |exact Hs]; intros x Hx; [apply (N (FromStorage F x))|apply (N' (FromDatabase F x))]; eauto.
  - intros H. inversion H as [? s Hs|? s N Hs|? s N N' Hs]; subst.
    + left. eauto.
    + right. split; [intros b (x & Hx & _); exact (N x Hx)|left; eauto].
    + right. split; [intros b (x & Hx & _); exact (N x Hx)|]. right. split; [intros b (x & Hx & _); exact (N' x Hx)|eauto].
Qed.
Lemma event_ok v : good (j_event F parse_f64 k json_text) (json_event F parse_f64 k json_text) v.
Proof. struct_tac ltac:(first [apply event_type_ok|apply event_source_ok]). Qed.
Lemma consumer_ok v : good (j_consumer F parse_f64 k json_text) (json_consumer F parse_f64 k json_text) v.
Proof. struct_tac ltac:(apply map_ok; intros; apply event_ok). Qed.
Lemma cors_ok v : good (j_cors F parse_f64 k json_text) (json_cors F parse_f64 k json_text) v.
Proof. struct_tac fail. Qed.
(** A text, or a struct: a value is not both. *)
Lemma choice_ok {A B} (f : yaml -> outcome yerr A) R names (c : list part -> B) (d : A -> B) v :
  good f R v -> (forall a, R v a -> is_struct names v) ->
  okis (j_else (omap c (j_text k v)) (omap d (f v))) (fun b => (exists ps, is_text k v ps /\ b = c ps) \/ (exists a, R v a /\ b = d a)).
Proof.
  intros Hf Hn. eapply okis_iff; [|apply okis_else; [apply okis_map, jtext_ok|apply okis_map, Hf]]. intros b. cbv beta. split.
  - intros [H|[_ H]]; [now left|now right].
  - intros [H|H]; [now left|right]. split; [|exact H]. intros b' (ps & (t & -> & _) & _). destruct H as (a & Ha & _).
    destruct (Hn a Ha) as [(? & ? & _)|(? & ? & _)]; discriminate.
Qed.
Lemma cors_choice_ok v : good (j_cors_choice F parse_f64 k json_text) (json_cors_choice F parse_f64 k json_text) v.
Proof. eapply choice_ok; [apply cors_ok|]. intros a H. exact (proj1 H). Qed.
Lemma base_ok v : good (j_base F parse_f64 k json_text) (json_base F parse_f64 k json_text) v.
Proof. struct_tac fail. Qed.
Lemma base_path_ok v : good (j_base_path F parse_f64 k json_text) (json_base_path F parse_f64 k json_text) v.
Proof. eapply choice_ok; [apply base_ok|]. intros a H. exact (proj1 H). Qed.
Lemma domain_ok v : good (j_domain F parse_f64 k json_text) (json_domain F parse_f64 k json_text) v.
Proof. struct_tac ltac:(apply list_ok; intros; apply base_path_ok). Qed.
Lemma source_ok v : good (j_source F parse_f64 k json_text) (json_source F parse_f64 k json_text) v.
Proof. struct_tac fail. Qed.
Lemma value_source_ok v : good (j_value_source F parse_f64 k json_text) (json_value_source F parse_f64 k json_text) v.
Proof. eapply choice_ok; [apply source_ok|]. intros a H. exact (proj1 H). Qed.
Lemma guard_ok v : good (j_guard F parse_f64 k json_text) (json_guard F parse_f64 k json_text) v.
Proof. struct_tac ltac:(apply value_source_ok). Qed.
Lemma auth_ok v : good (j_auth F parse_f64 k json_text) (json_auth F parse_f64 k json_text) v.
Proof. struct_tac ltac:(apply map_ok; intros; apply guard_ok). Qed.
Lemma api_ok v : good (j_api F parse_f64 k json_text) (json_api F parse_f64 k json_text) v.
Proof. struct_tac ltac:(first [apply cors_choice_ok|apply domain_ok|apply auth_ok]). Qed.

Lemma condition_ok v : good (j_condition F parse_f64 k json_text) (json_condition F parse_f64 k json_text) v.
Proof. struct_tac fail. Qed.
Lemma rule_ok v : good (j_rule F parse_f64 k json_text) (json_rule F parse_f64 k json_text) v.
Proof. struct_tac ltac:(first [apply condition_ok|apply list_ok; intros; apply condition_ok]). Qed.
Lemma wait_ok v : good (j_wait k) (json_wait k) v.
Proof. struct_tac fail. Qed.
Lemma failure_ok v : good (j_failure k) (json_failure k) v.
Proof. struct_tac fail. Qed.
Lemma retry_ok v : good (j_retry F parse_f64 k json_text) (json_retry F parse_f64 k json_text) v.
Proof. struct_tac fail. Qed.
Lemma catch_ok v : good (j_catch k) (json_catch k) v.
Proof. struct_tac fail. Qed.
Lemma has_in names v key w : has names v key w -> (exists l, v = YSeq l /\ In w l) \/ (exists m key', v = YMap m /\ In (key', w) m).
Proof. intros [(m & -> & Hi)|(l & -> & Hi)]; [right; eauto|left; eexists; split; [reflexivity|]; eapply in_combine_r; eassumption]. Qed.
Lemma machine_ok state R v :
  (forall w, inside w v -> good state R w) -> good (j_machine F k state) (json_machine F k R) v.
Proof.
  intros H. unfold good. eapply okis_iff; [|eapply struct_ok; intros S].
  2: { eapply okis_bind; [field_tac S fail|intros ? _]. eapply okis_bind; [|intros ? _; apply okis_ret].
       eapply req_ok; [exact S|vm_compute; reflexivity|]. intros w Hw. apply map_ok. intros m key u -> Hu. apply H.
       eapply inside_trans; [|eapply has_inside; exact Hw]. eapply in_map; [exact Hu|constructor]. }
  record_tac.
Qed.
Lemma state_eq v : j_state F parse_f64 k json_text v =
  j_struct state_names v (
    let! ty := j_req state_names (chars "type") (j_text k) v in
    let! de := j_opt state_names (chars "description") (j_text k) v in
    let! ip := j_opt state_names (chars "inputPath") (j_text k) v in
    let! rp := j_opt state_names (chars "resultPath") (j_text k) v in
    let! op := j_opt state_names (chars "outputPath") (j_text k) v in
    let! pt := j_opt state_names (chars "payloadTemplate") (j_map j_node) v in
    let! nx := j_opt state_names (chars "next") (j_text k) v in
    let! en := j_opt state_names (chars "end") j_node v in
    let! ds := j_opt state_names (chars "decisions") (j_list (j_rule F parse_f64 k json_text)) v in
    let! re := j_opt state_names (chars "result") j_node v in
    let! ti := j_opt state_names (chars "timeout") j_node v in
    let! wa := j_opt state_names (chars "waitConfig") (j_wait k) v in
    let! fa := j_opt state_names (chars "failureConfig") (j_failure k) v in
    let! br := j_opt state_names (chars "parallelBranches") (j_list (j_machine F k (j_state F parse_f64 k json_text))) v in
    let! rt := j_opt state_names (chars "retry") (j_list (j_retry F parse_f64 k json_text)) v in
    let! ca := j_opt state_names (chars "catch") (j_list (j_catch k)) v in
    Ok (mk_sstate F ty de ip rp op pt nx en ds re ti wa fa br rt ca)).
Proof. destruct v; reflexivity. Qed.
Lemma state_ok : forall v, good (j_state F parse_f64 k json_text) (json_state F parse_f64 k json_text) v.
Proof.
  apply yaml_deep. intros v IHl IHm. unfold good. rewrite state_eq.
  assert (IH : forall key w u, has state_names v key w -> inside u w -> good (j_state F parse_f64 k json_text) (json_state F parse_f64 k json_text) u).
  { intros key w u Hw Hu. destruct (has_in _ _ _ _ Hw) as [(l & E & Hi)|(m & key' & E & Hi)]; [exact (IHl l w u E Hi Hu)|exact (IHm m key' w u E Hi Hu)]. }
  clear IHl IHm. eapply okis_iff; [|eapply struct_ok; intros S].
  2: { do 13 (eapply okis_bind; [field_tac S ltac:(first [apply wait_ok|apply failure_ok|apply list_ok; intros; apply rule_ok])|intros ? _]).
       eapply okis_bind; [eapply opt_ok; [exact S|vm_compute; reflexivity|]|intros ? _].
       { intros w Hw. apply list_ok. intros l u -> Hu. apply machine_ok. intros x Hx. eapply IH; [exact Hw|]. eapply in_seq; eassumption. }
       body_tac S ltac:(first [apply list_ok; intros; apply retry_ok|apply list_ok; intros; apply catch_ok]). }
  clear IH. intros x. split.
  - intros [S H]. repeat (destruct H as (? & ? & H)). subst. constructor; try assumption; exact S.
  - intros H. inversion H; subst. split; [assumption|]. destruct x; cbn in *. repeat (eexists; split; [eassumption|]). reflexivity.
Qed.
Lemma workflow_ok v : good (j_workflow F parse_f64 k json_text) (json_workflow F parse_f64 k json_text) v.
Proof. apply machine_ok. intros. apply state_ok. Qed.

Lemma config_ok v : good (j_config k) (json_config k) v.
Proof. struct_tac fail. Qed.
Lemma bucket_ok v : good (j_bucket k) (json_bucket k) v.
Proof.
  unfold good. eapply okis_iff; [|eapply struct_ok; intros S; body_tac S fail]. intros x. split; intros [S H]; (split; [exact S|]).
  - destruct H as (o & H & ->). exact H.
  - destruct x as [o]. eauto.
Qed.
Lemma topic_ok v : good (j_topic F parse_f64 k json_text) (json_topic F parse_f64 k json_text) v.
Proof. struct_tac fail. Qed.
Lemma queue_ok v : good (j_queue F parse_f64 k json_text) (json_queue F parse_f64 k json_text) v.
Proof. struct_tac fail. Qed.
Lemma metadata_ok v : good (j_metadata F parse_f64 k json_text) (json_metadata F parse_f64 k json_text) v.
Proof. struct_tac fail. Qed.
Lemma selector_ok v : good j_selector json_selector v.
Proof. unfold good. apply struct_ok. intros S. field_tac S fail. Qed.
Lemma blueprint_metadata_ok v : good (j_blueprint_metadata F parse_f64 k json_text) (json_blueprint_metadata F parse_f64 k json_text) v.
Proof. unfold good. apply struct_ok. intros S. field_tac S ltac:(apply shared_ok). Qed.
Lemma spec_ok ty v : good (j_spec F parse_f64 k json_text ty) (json_spec F parse_f64 k json_text ty) v.
Proof.
  unfold good. destruct ty; cbn [j_spec]; apply okis_map.
  all: first [apply handler_ok|apply api_ok|apply consumer_ok|apply schedule_ok|apply shared_ok|apply workflow_ok|apply config_ok|apply bucket_ok|apply topic_ok|apply queue_ok].
Qed.
End Params.
