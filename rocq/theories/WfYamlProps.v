(** C104 to C108: reading a workflow from YAML. *)
From Coq Require Import Permutation.
From Verif Require Import Base Chars SubstModel SubstProofs SubstProps ResolveModel WfYamlModel WfYamlSpec WfYamlProofs.
Local Open Scope list_scope.

(** * No panics *)
Lemma safe_bind {E A B} (x : outcome E A) (f : A -> outcome E B) : x <> Panic -> (forall a, f a <> Panic) -> obind x f <> Panic.
Proof. destruct x; cbn; auto; discriminate. Qed.
Lemma safe_map {E A B} (f : A -> B) (x : outcome E A) : x <> Panic -> omap f x <> Panic.
Proof. destruct x; cbn; auto; discriminate. Qed.
Lemma safe_fold {A E X} (f : X -> A -> outcome E X) l : (forall a, In a l -> forall x, f x a <> Panic) -> forall x, foldo f x l <> Panic.
Proof.
  induction l as [|a l IH]; intros H x; cbn; [discriminate|]. apply safe_bind; [apply H; now left|]. intros y. apply IH. intros b Hb. apply H. now right.
Qed.
Lemma safe_collect {A E B} (f : A -> outcome E (option B)) l : (forall a, In a l -> f a <> Panic) -> collect f l <> Panic.
Proof.
  induction l as [|a l IH]; intros H; cbn; [discriminate|]. apply safe_bind; [apply H; now left|]. intros o. apply safe_bind; [|discriminate].
  apply IH. intros b Hb. apply H. now right.
Qed.
Lemma safe_maps {B} (f : list (option text * yaml) -> outcome yerr B) l : (forall m, In (YMap m) l -> f m <> Panic) -> y_maps f l <> Panic.
Proof. intros H. apply safe_collect. intros [] Ha; try discriminate. apply safe_map. now apply H. Qed.

Section Params.
Variable F : Type.
Variable parse_f64 : text -> option F.
Variable k : classes.
Hypothesis Hk : sane k.
Notation y_workflow := (y_workflow F parse_f64 k).
Notation y_state := (y_state F parse_f64 k).
Notation is_workflow := (is_workflow F parse_f64 k).
Notation is_state := (is_state F parse_f64 k).

Lemma subs_safe t : subs k t <> Panic.
Proof. unfold subs. pose proof (C53_never_panics k Hk t). destruct (parse_substitutions k t); [discriminate..|tauto]. Qed.
Lemma text_safe v : y_text k v <> Panic.
Proof. destruct v; cbn; try discriminate. apply subs_safe. Qed.
Lemma single_safe t : single k t <> Panic.
Proof. apply safe_bind; [apply subs_safe|]. intros [|[] []]; discriminate. Qed.
Lemma int_safe v : y_int F k v <> Panic.
Proof. destruct v; cbn; try discriminate. apply safe_map, single_safe. Qed.
Lemma bool_safe v : y_bool F k v <> Panic.
Proof. destruct v; cbn; try discriminate. apply safe_map, single_safe. Qed.
Lemma float_safe v : y_float F parse_f64 k v <> Panic.
Proof. destruct v; cbn; try discriminate; [apply safe_map, single_safe|destruct (parse_f64 t); discriminate]. Qed.
Lemma node_safe : forall v, y_node F parse_f64 k v <> Panic.
Proof.
  apply (yaml_deep (fun v => y_node F parse_f64 k v <> Panic)). intros v IHl IHm. destruct v; cbn [y_node]; try discriminate.
  - apply safe_map, subs_safe.
  - destruct (parse_f64 t); discriminate.
  - apply safe_map, safe_collect. intros a Ha. apply safe_map. eapply IHl; [reflexivity|exact Ha|constructor].
  - apply safe_map, safe_collect. intros [[key|] v] Ha; [|discriminate]. apply safe_bind; [|discriminate]. eapply IHm; [reflexivity|exact Ha|constructor].
Qed.
Lemma payload_safe m : y_payload F parse_f64 k m <> Panic.
Proof. apply safe_collect. intros [[key|] v] _; [|discriminate]. apply safe_bind; [apply node_safe|discriminate]. Qed.
Lemma strings_safe l : y_strings k l <> Panic.
Proof. apply safe_collect. intros a _. apply safe_map, text_safe. Qed.
Lemma condition_safe m : y_condition F parse_f64 k m <> Panic.
Proof.
  apply safe_bind.
  - destruct (yget _ m) as [[]|]; try discriminate. apply safe_collect. intros a _. apply safe_map, node_safe.
  - intros i. apply safe_bind; [|discriminate]. destruct (yget _ m) as [[]|]; try discriminate. apply subs_safe.
Qed.
Ltac safe_entry := repeat match goal with
  | |- (if text_eqb ?a ?b then _ else _) <> Panic => destruct (text_eqb a b)
  | |- obind _ _ <> Panic => apply safe_bind; [|discriminate]
  end; try discriminate; auto using text_safe, int_safe, bool_safe, float_safe, node_safe.
Lemma rule_safe m : y_rule F parse_f64 k m <> Panic.
Proof.
  apply safe_bind; [|intros r; destruct (parts_empty _); discriminate]. apply safe_fold. intros [[key|] v] _ x; [|discriminate]. cbn [rule_entry]. safe_entry.
  1,2: destruct v; try discriminate; apply safe_maps; intros; apply condition_safe.
  1,2: destruct v; try discriminate; apply condition_safe.
Qed.
Lemma wait_safe v : y_wait k v <> Panic.
Proof. destruct v; try discriminate. apply safe_fold. intros [[key|] v] _ x; [|discriminate]. cbn [wait_entry]. safe_entry. Qed.
Lemma failure_safe v : y_failure k v <> Panic.
Proof. destruct v; try discriminate. apply safe_fold. intros [[key|] v] _ x; [|discriminate]. cbn [failure_entry]. safe_entry. Qed.
Lemma retry_safe m : y_retry F parse_f64 k m <> Panic.
Proof. apply safe_fold. intros [[key|] v] _ x; [|discriminate]. cbn [retry_entry]. safe_entry. destruct v; try discriminate. apply strings_safe. Qed.
Lemma catch_safe m : y_catch k m <> Panic.
Proof. apply safe_fold. intros [[key|] v] _ x; [|discriminate]. cbn [catch_entry]. safe_entry. destruct v; try discriminate. apply strings_safe. Qed.
Lemma states_safe state m : (forall key v, In (key, v) m -> state v <> Panic) -> y_states F state m <> Panic.
Proof. intros H. apply safe_collect. intros [[key|] v] Ha; [|discriminate]. apply safe_bind; [eapply H, Ha|discriminate]. Qed.
Lemma state_safe : forall v, y_state v <> Panic.
Proof.
  apply (yaml_deep (fun v => y_state v <> Panic)). intros v _ IH. destruct v; try discriminate. cbn [WfYamlModel.y_state].
  apply safe_bind; [|intros s; destruct (parts_empty _); discriminate]. apply safe_fold. intros [[key|] v] Hv x; [|discriminate].
  unfold state_entry, y_text_some. destruct x. safe_entry.
  1-4, 6: apply safe_map, text_safe.
  - destruct v; try discriminate. apply payload_safe.
  - destruct v; try discriminate. apply safe_maps. intros; apply rule_safe.
  - apply wait_safe.
  - apply failure_safe.
  - destruct v; try discriminate. apply safe_maps. intros bm Hb. apply safe_fold. intros [[key'|] v] Hv' x; [|discriminate]. cbn [branch_entry]. safe_entry.
    destruct v; try discriminate. apply states_safe. intros key'' v Hv''. eapply IH; [reflexivity|exact Hv|].
    econstructor; [exact Hb|]. econstructor; [exact Hv'|]. econstructor; [exact Hv''|constructor].
  - destruct v; try discriminate. apply safe_maps. intros; apply retry_safe.
  - destruct v; try discriminate. apply safe_maps. intros; apply catch_safe.
Qed.

(** C104.  Reading succeeds exactly when the document declares a workflow, with exactly what it
    declares, to any depth of parallel branches. *)
Theorem C104_exact : forall m, one_each (YMap m) -> forall w, y_workflow m = Ok w <-> is_workflow m w.
Proof. intros m Hm w. apply workflow_ok; assumption. Qed.
Theorem C104_never_panics : forall m, y_workflow m <> Panic.
Proof.
  intros m. apply safe_fold. intros [[key|] v] _ x; [|discriminate]. cbn [spec_entry]. safe_entry.
  destruct v; try discriminate. apply states_safe. intros; apply state_safe.
Qed.
(** The order of the keys does not matter. *)
Lemma perm_keys m m' : Permutation m m' -> Permutation (keys_of m) (keys_of m').
Proof. intros P. unfold keys_of. now apply Permutation_flat_map. Qed.
Lemma perm_one_each m m' : Permutation m m' -> one_each (YMap m) -> one_each (YMap m').
Proof.
  intros P H x Hx. inversion Hx as [|w l Hw Hi|key w x' Hw Hi]; subst.
  - eapply Permutation_NoDup; [apply perm_keys, P|]. apply H. constructor.
  - apply H. econstructor; [|exact Hi]. eapply Permutation_in; [apply Permutation_sym, P|exact Hw].
Qed.
Lemma perm_optional {A} m m' key (R : yaml -> A -> Prop) o : Permutation m m' -> optional m key R o -> optional m' key R o.
Proof.
  intros P [(v & a & Hi & H)|[Hl ->]]; [left|right].
  - exists v, a. split; [eapply Permutation_in; eassumption|exact H].
  - split; [|reflexivity]. intros Hi. apply Hl. eapply Permutation_in; [apply Permutation_sym, perm_keys, P|exact Hi].
Qed.
Lemma perm_defaults {A} m m' key (R : yaml -> A -> Prop) d o : Permutation m m' -> defaults m key R d o -> defaults m' key R d o.
Proof.
  intros P [(v & Hi & H)|[Hl ->]]; [left|right].
  - exists v. split; [eapply Permutation_in; eassumption|exact H].
  - split; [|reflexivity]. intros Hi. apply Hl. eapply Permutation_in; [apply Permutation_sym, perm_keys, P|exact Hi].
Qed.
Lemma perm_state m m' s : Permutation m m' -> is_state (YMap m) s -> is_state (YMap m') s.
Proof.
  intros P H. inversion H; subst. constructor; try (eapply perm_optional; eassumption); [| |assumption].
  - intros key Hi. match goal with H : forall key, _ -> In key state_keys |- _ => apply H end. eapply Permutation_in; [apply Permutation_sym, perm_keys, P|exact Hi].
  - match goal with Q : required m _ _ _ |- _ => destruct Q as (v & Hi & Ht) end. exists v. split; [eapply Permutation_in; eassumption|exact Ht].
Qed.
Theorem C104_key_order : forall m m', one_each (YMap m) -> Permutation m m' ->
  (forall s, y_state (YMap m) = Ok s <-> y_state (YMap m') = Ok s) /\ (forall w, y_workflow m = Ok w <-> y_workflow m' = Ok w).
Proof.
  intros m m' Hm P. pose proof (perm_one_each m m' P Hm) as Hm'. pose proof (Permutation_sym P) as P'. split.
  - intros s. rewrite !state_ok by assumption. split; apply perm_state; assumption.
  - assert (W : forall a b w, Permutation a b -> is_workflow a w -> is_workflow b w).
    { intros a b w Q (HK & H1 & H2). split; [|split; eapply perm_defaults; eassumption].
      intros key Hi. apply HK. eapply Permutation_in; [apply Permutation_sym, perm_keys, Q|exact Hi]. }
    intros w. rewrite !C104_exact by assumption. split; apply W; assumption.
Qed.

(** C105.  A key the runtime does not know.  [declared v m]: [v] is a state declared in the
    mapping [m], which has a [states] key, directly or in a parallel branch of such a state. *)
Inductive declared (v : yaml) : list (option text * yaml) -> Prop :=
| dc_here m sm name : In (Some (chars "states"), YMap sm) m -> In (Some name, v) sm -> declared v m
| dc_branch m sm name st l bm : In (Some (chars "states"), YMap sm) m -> In (Some name, YMap st) sm ->
    In (Some (chars "parallelBranches"), YSeq l) st -> In (YMap bm) l -> declared v bm -> declared v m.
Lemma entries_in m key v : In (Some key, v) m -> In (key, v) (entries_of m).
Proof. intros H. unfold entries_of. apply in_flat_map. exists (Some key, v). split; [exact H|now left]. Qed.
Lemma maps_in l m : In (YMap m) l -> In m (maps_of l).
Proof. intros H. unfold maps_of. apply in_flat_map. exists (YMap m). split; [exact H|now left]. Qed.
Lemma Forall2_in {A B} (R : A -> B -> Prop) l r a : Forall2 R l r -> In a l -> exists b, In b r /\ R a b.
Proof. induction 1 as [|x y l r Hxy H IH]; [intros []|]. intros [->|Hi]; [exists y; split; [now left|exact Hxy]|]. destruct (IH Hi) as (b & Hb & HR). exists b. split; [now right|exact HR]. Qed.
Lemma declared_state m v : declared v m -> one_each (YMap m) -> forall b, is_branch F parse_f64 k m b -> exists s, is_state v s.
Proof.
  induction 1 as [m sm name Hs Hv|m sm name st l bm Hs Hst Hp Hb Hd IH]; intros Hm b (_ & H2).
  - pose proof (defaults_reads _ _ _ _ _ _ (one_each_keys _ Hm) H2 Hs) as (sm' & [= <-] & HF).
    destruct (Forall2_in _ _ _ _ HF (entries_in _ _ _ Hv)) as ((n, s) & _ & _ & HS). cbn in HS. eauto.
  - pose proof (defaults_reads _ _ _ _ _ _ (one_each_keys _ Hm) H2 Hs) as (sm' & [= <-] & HF).
    destruct (Forall2_in _ _ _ _ HF (entries_in _ _ _ Hst)) as ((n, s) & _ & _ & HS). cbn in HS.
    assert (Hst' : one_each (YMap st)) by (eapply one_each_map; [eapply one_each_map; [exact Hm|exact Hs]|exact Hst]).
    assert (Hbm : one_each (YMap bm)) by (eapply one_each_seq; [eapply one_each_map; [exact Hst'|exact Hp]|exact Hb]).
    inversion HS as [m0 s0 HK R0 D0 O1 O2 O3 O4 O5 O6 O7 O8 O9 O10 O11 O12 O13 O14 O15]; subst.
    pose proof (optional_reads _ _ _ _ _ (one_each_keys _ Hst') O13 Hp) as (bs & (l' & [= <-] & HB) & _).
    destruct (Forall2_in _ _ _ _ HB (maps_in _ _ Hb)) as (b' & _ & HBr). exact (IH Hbm b' HBr).
Qed.
Theorem C105_unknown_rejected : forall m w, one_each (YMap m) -> y_workflow m = Ok w ->
  (forall key v, In (Some key, v) m -> In key [chars "startAt"; chars "states"]) /\
  (forall st key v, declared (YMap st) m -> In (Some key, v) st -> In key state_keys).
Proof.
  intros m w Hm Hw. apply C104_exact in Hw; [|exact Hm]. destruct Hw as (HK & HB). split.
  - intros key v Hi. apply HK, keys_in. eauto.
  - intros st key v Hd Hi. destruct (declared_state _ _ Hd Hm _ HB) as (s & HS). inversion HS; subst. match goal with H : forall key, _ -> In key state_keys |- _ => apply H, keys_in; eauto end.
Qed.
(** But in the configurations inside a state, a misspelt key is dropped without a word. *)
Lemma fold_drop {X} (step : X -> option text * yaml -> outcome yerr X) e : (forall x, step x e = Ok x) ->
  forall pre post x, foldo step x (pre ++ e :: post) = foldo step x (pre ++ post).
Proof. intros H. induction pre as [|a pre IH]; intros post x; cbn; [now rewrite H|]. destruct (step x a); cbn; [apply IH|reflexivity..]. Qed.
Ltac unknown_tac H := intros x; cbn -[text_eqb chars]; repeat match goal with |- context [text_eqb ?a (chars ?b)] =>
  destruct (text_eqb_spec a (chars b)) as [->|?]; [exfalso; apply H; cbn [map In]; tauto|] end; reflexivity.
Theorem C105_nested_refuted : forall pre post key v,
  (~ In key (map chars ["seconds"; "timestamp"]%string) -> y_wait k (YMap (pre ++ (Some key, v) :: post)) = y_wait k (YMap (pre ++ post))) /\
  (~ In key (map chars ["error"; "cause"]%string) -> y_failure k (YMap (pre ++ (Some key, v) :: post)) = y_failure k (YMap (pre ++ post))) /\
  (~ In key (map chars ["matchErrors"; "interval"; "maxAttempts"; "maxDelay"; "jitter"; "backoffRate"]%string) ->
     y_retry F parse_f64 k (pre ++ (Some key, v) :: post) = y_retry F parse_f64 k (pre ++ post)) /\
  (~ In key (map chars ["matchErrors"; "next"; "resultPath"]%string) -> y_catch k (pre ++ (Some key, v) :: post) = y_catch k (pre ++ post)) /\
  (~ In key (map chars ["and"; "or"; "not"; "condition"; "next"]%string) ->
     y_rule F parse_f64 k (pre ++ (Some key, v) :: post) = y_rule F parse_f64 k (pre ++ post)) /\
  (~ In key (map chars ["startAt"; "states"]%string) ->
     y_branch F k y_state (pre ++ (Some key, v) :: post) = y_branch F k y_state (pre ++ post)).
Proof.
  intros pre post key v. repeat split; intros H.
  - apply fold_drop. unknown_tac H.
  - apply fold_drop. unknown_tac H.
  - apply fold_drop. unknown_tac H.
  - apply fold_drop. unknown_tac H.
  - unfold y_rule. rewrite fold_drop; [reflexivity|unknown_tac H].
  - apply fold_drop. unknown_tac H.
Qed.

(** C106.  Every element of a list that is a mapping is there, in order, and nothing else is. *)
Lemma all_maps {B} (R : list (option text * yaml) -> B -> Prop) l r : (forall v, In v l -> exists m, v = YMap m) -> Forall2 R (maps_of l) r ->
  Forall2 (fun v b => exists m, v = YMap m /\ R m b) l r.
Proof.
  revert r. induction l as [|v l IH]; intros r Hl H; [inversion H; constructor|]. destruct (Hl v (or_introl eq_refl)) as (m & ->). cbn in H. inversion H; subst.
  constructor; [eauto|]. apply IH; [|assumption]. intros w Hw. apply Hl. now right.
Qed.
Theorem C106_kept_partial : forall m s l, one_each (YMap m) -> y_state (YMap m) = Ok s -> (forall v, In v l -> exists m', v = YMap m') ->
  (In (Some (chars "decisions"), YSeq l) m -> exists r, ss_decisions F s = Some r /\ Forall2 (fun v b => exists m', v = YMap m' /\ is_rule F parse_f64 k m' b) l r) /\
  (In (Some (chars "parallelBranches"), YSeq l) m -> exists r, ss_branches F s = Some r /\ Forall2 (fun v b => exists m', v = YMap m' /\ is_branch F parse_f64 k m' b) l r) /\
  (In (Some (chars "retry"), YSeq l) m -> exists r, ss_retry F s = Some r /\ Forall2 (fun v b => exists m', v = YMap m' /\ is_retry F parse_f64 k m' b) l r) /\
  (In (Some (chars "catch"), YSeq l) m -> exists r, ss_catch F s = Some r /\ Forall2 (fun v b => exists m', v = YMap m' /\ is_catch k m' b) l r).
Proof.
  intros m s l Hm Hs Hl. apply state_ok in Hs; [|exact Hk|exact Hm]. pose proof (one_each_keys _ Hm) as Hn.
  inversion Hs as [m0 s0 HK R0 D0 O1 O2 O3 O4 O5 O6 O7 O8 O9 O10 O11 O12 O13 O14 O15]; subst.
  repeat split; intros Hi;
    [pose proof (optional_reads _ _ _ _ _ Hn O8 Hi) as (r & (l' & [= <-] & HF) & E)|pose proof (optional_reads _ _ _ _ _ Hn O13 Hi) as (r & (l' & [= <-] & HF) & E)
    |pose proof (optional_reads _ _ _ _ _ Hn O14 Hi) as (r & (l' & [= <-] & HF) & E)|pose proof (optional_reads _ _ _ _ _ Hn O15 Hi) as (r & (l' & [= <-] & HF) & E)];
    exists r; (split; [exact E|now apply all_maps]).
Qed.
Lemma collect_drop {A E B} (f : A -> outcome E (option B)) a : f a = Ok None -> forall pre post, collect f (pre ++ a :: post) = collect f (pre ++ post).
Proof. intros H. induction pre as [|b pre IH]; intros post; cbn; [rewrite H; cbn; fold (collect f post); now destruct (collect f post)|]. fold (collect f). now rewrite IH. Qed.
Lemma fold_same {X A} (step : X -> A -> outcome yerr X) e e' : (forall x, step x e = step x e') ->
  forall pre post x, foldo step x (pre ++ e :: post) = foldo step x (pre ++ e' :: post).
Proof. intros H. induction pre as [|a pre IH]; intros post x; cbn; [now rewrite H|]. destruct (step x a); cbn; [apply IH|reflexivity..]. Qed.
(** An element of another kind - a retry rule that is a text, an empty list item - is dropped: the
    document means the same without it. *)
Theorem C106_dropped_refuted : forall pre post l1 l2 v key, (forall m, v <> YMap m) ->
  In key (map chars ["decisions"; "parallelBranches"; "retry"; "catch"]%string) ->
  y_state (YMap (pre ++ (Some key, YSeq (l1 ++ v :: l2)) :: post)) = y_state (YMap (pre ++ (Some key, YSeq (l1 ++ l2)) :: post)).
Proof.
  intros pre post l1 l2 v key Hv Hkey.
  assert (M : forall {B} (f : _ -> outcome yerr B), y_maps f (l1 ++ v :: l2) = y_maps f (l1 ++ l2)).
  { intros B f. apply collect_drop. destruct v; try reflexivity. now elim (Hv m). }
  cbn [WfYamlModel.y_state]. erewrite fold_same; [reflexivity|]. intros x. cbn [map In] in Hkey.
  destruct Hkey as [<-|[<-|[<-|[<-|[]]]]]; unfold state_entry, y_rules; destruct x;
    repeat match goal with |- context [text_eqb (chars ?a) (chars ?b)] =>
      let r := eval cbv in (text_eqb (chars a) (chars b)) in change (text_eqb (chars a) (chars b)) with r; cbv iota end; now rewrite M.
Qed.
(** A state whose name YAML does not read as a text (404, true) is dropped in the same way, and
    so is a condition of a rule. *)
Theorem C106_unnamed_refuted : forall pre post a b v, 
  y_workflow (a ++ (Some (chars "states"), YMap (pre ++ (None, v) :: post)) :: b) = y_workflow (a ++ (Some (chars "states"), YMap (pre ++ post)) :: b).
Proof.
  intros pre post a b v. unfold WfYamlModel.y_workflow. erewrite fold_same; [reflexivity|]. intros x.
  assert (M : y_states F y_state (pre ++ (None, v) :: post) = y_states F y_state (pre ++ post)) by (apply collect_drop; reflexivity).
  unfold spec_entry. change (text_eqb (chars "states") (chars "startAt")) with false. change (text_eqb (chars "states") (chars "states")) with true. cbv iota. now rewrite M.
Qed.

(** C107.  Fields that must be there: the type of a state, the next state of a rule, the inputs and
    the function of a condition. *)
Theorem C107_required_partial : forall m, one_each (YMap m) ->
  (forall s, y_state (YMap m) = Ok s -> exists t ps, In (Some (chars "type"), YStr t) m /\ parse_substitutions k t = Ok ps /\ ss_type F s = ps /\ ps <> [Lit []]) /\
  (forall r, y_rule F parse_f64 k m = Ok r -> exists t ps, In (Some (chars "next"), YStr t) m /\ parse_substitutions k t = Ok ps /\ su_next F r = ps /\ ps <> [Lit []]) /\
  (forall c, y_condition F parse_f64 k m = Ok c -> exists l t, In (Some (chars "inputs"), YSeq l) m /\ In (Some (chars "function"), YStr t) m /\ length (sc_inputs F c) = length l).
Proof.
  intros m Hm. repeat split.
  - intros s Hs. apply state_ok in Hs; [|exact Hk|exact Hm]. inversion Hs as [m0 s0 HK (v & Hi & t & -> & E) D0]; subst. eauto 8.
  - intros r Hr. apply rule_ok in Hr; [|exact Hk|exact Hm]. destruct Hr as (_ & _ & _ & _ & (v & Hi & t & -> & E) & D). eauto 8.
  - intros c Hc. apply condition_ok in Hc; [|now apply one_each_keys]. destruct Hc as ((v & Hi & l & -> & HF) & (w & Hj & t & -> & _)).
    exists l, t. repeat split; try assumption. symmetry. clear -HF. induction HF; cbn; congruence.
Qed.
(** The start state, the states, the errors a handler matches and the state it goes to may be
    left out, and are then empty. *)
Theorem C107_missing_refuted : 
  y_workflow [] = Ok ([], []) /\
  (forall m w, one_each (YMap m) -> y_workflow m = Ok w -> lacks m (chars "startAt") -> fst w = []) /\
  (forall m b, one_each (YMap m) -> y_branch F k y_state m = Ok b -> lacks m (chars "startAt") -> fst b = []) /\
  (forall m c, one_each (YMap m) -> y_catch k m = Ok c -> lacks m (chars "next") -> sh_next c = []) /\
  (forall m r, one_each (YMap m) -> y_retry F parse_f64 k m = Ok r -> lacks m (chars "matchErrors") -> sy_match F r = []).
Proof.
  assert (D : forall {A} m key (R : yaml -> A -> Prop) d a, defaults m key R d a -> lacks m key -> a = d).
  { intros A m key R d a [(v & Hi & _)|[_ ->]] Hl; [|reflexivity]. elim Hl. apply keys_in. eauto. }
  split; [reflexivity|]. repeat split; intros m x Hm H Hl.
  - apply C104_exact in H; [|exact Hm]. exact (D _ _ _ _ _ _ (proj1 (proj2 H)) Hl).
  - apply branch_ok in H; [exact (D _ _ _ _ _ _ (proj1 H) Hl)|exact Hm|]. intros v Hv. apply state_ok; [exact Hk|]. eapply one_each_inside; eassumption.
  - apply catch_ok in H; [|exact Hm]. exact (D _ _ _ _ _ _ (proj1 (proj2 H)) Hl).
  - apply retry_ok in H; [|exact Hm]. exact (D _ _ _ _ _ _ (proj1 H) Hl).
Qed.

(** C108.  Numbers: the integers of a retry rule and of a timeout arrive as written. *)
Theorem C108_integers_partial : forall m z, one_each (YMap m) ->
  (forall s, y_state (YMap m) = Ok s -> In (Some (chars "timeout"), YInt z) m -> ss_timeout F s = Some (NScalar F (SInt F z))) /\
  (forall r, y_retry F parse_f64 k m = Ok r ->
     (In (Some (chars "interval"), YInt z) m -> sy_interval F r = Some (NScalar F (SInt F z))) /\
     (In (Some (chars "maxAttempts"), YInt z) m -> sy_attempts F r = Some (NScalar F (SInt F z))) /\
     (In (Some (chars "maxDelay"), YInt z) m -> sy_delay F r = Some (NScalar F (SInt F z)))).
Proof.
  intros m z Hm. pose proof (one_each_keys _ Hm) as Hn.
  assert (G : forall key o, optional m key (is_int F k) o -> In (Some key, YInt z) m -> o = Some (NScalar F (SInt F z))).
  { intros key o Ho Hi. destruct (optional_reads _ _ _ _ _ Hn Ho Hi) as (a & [(z' & [= <-] & ->)|(t & n & [=] & _)] & ->). reflexivity. }
  split.
  - intros s Hs. apply state_ok in Hs; [|exact Hk|exact Hm].
    inversion Hs as [m0 s0 HK R0 D0 O1 O2 O3 O4 O5 O6 O7 O8 O9 O10 O11 O12 O13 O14 O15]; subst. now apply G.
  - intros r Hr. apply retry_ok in Hr; [|exact Hm]. destruct Hr as (_ & O1 & O2 & O3 & _). repeat split; now apply G.
Qed.
(** A whole backoff rate, and a wait given as a number of seconds, are rejected. *)
Theorem C108_whole_refuted : forall m z, 
  (In (Some (chars "backoffRate"), YInt z) m -> forall r, y_retry F parse_f64 k m <> Ok r) /\
  (In (Some (chars "seconds"), YInt z) m -> forall w, y_wait k (YMap m) <> Ok w).
Proof.
  intros m z. split; intros Hi r Hr.
  - destruct (fold_ran _ _ _ _ Hr _ _ Hi) as (y & y' & H). cbv [retry_entry y_float] in H.
    repeat match type of H with context [text_eqb (chars ?a) (chars ?b)] =>
      let q := eval cbv in (text_eqb (chars a) (chars b)) in change (text_eqb (chars a) (chars b)) with q in H; cbv iota in H end. discriminate.
  - destruct (fold_ran _ _ _ _ Hr _ _ Hi) as (y & y' & H). cbv [wait_entry y_text] in H.
    repeat match type of H with context [text_eqb (chars ?a) (chars ?b)] =>
      let q := eval cbv in (text_eqb (chars a) (chars b)) in change (text_eqb (chars a) (chars b)) with q in H; cbv iota in H end. discriminate.
Qed.
End Params.

(** * A document that meets the hypotheses *)
Fixpoint distinct (l : list text) : bool :=
  match l with [] => true | a :: l' => forallb (fun b => negb (text_eqb a b)) l' && distinct l' end.
Fixpoint once (v : yaml) : bool :=
  match v with
  | YSeq l => forallb once l
  | YMap m => distinct (keys_of m) && forallb (fun e => match e with (_, w) => once w end) m
  | _ => true
  end.
Lemma distinct_sound l : distinct l = true -> NoDup l.
Proof.
  induction l as [|a l IH]; cbn; [constructor|]. intros H. apply andb_prop in H. destruct H as [H1 H2]. constructor; [|now apply IH].
  intros Hi. rewrite forallb_forall in H1. specialize (H1 a Hi). rewrite (proj2 (text_eqb_eq a a) eq_refl) in H1. discriminate.
Qed.
Lemma once_sound v : once v = true -> one_each v.
Proof.
  intros H m Hi. revert H. induction Hi as [|w l Hin Hi IH|key w m' Hin Hi IH]; cbn; intros H.
  - apply andb_prop in H. now apply distinct_sound.
  - rewrite forallb_forall in H. auto.
  - apply andb_prop in H. destruct H as [_ H]. rewrite forallb_forall in H. apply IH. exact (H _ Hin).
Qed.
Definition K (s : string) : option text := Some (chars s).
Definition T (s : string) : yaml := YStr (chars s).
Definition tenths (t : text) : option Z := if text_eqb t (chars "1.5") then Some 15%Z else None.
Definition fetch : yaml := YMap
  [(K "next", T "Done"); (K "type", T "executeStep"); (K "timeout", T "${variables.timeout}");
   (K "retry", YSeq [YMap [(K "matchErrors", YSeq [T "Timeout"]); (K "interval", YInt 5); (K "backoffRate", YReal (chars "1.5"))]]);
   (K "catch", YSeq [YMap [(K "next", T "Done"); (K "resultPath", T "$.error")]])].
Definition sample : list (option text * yaml) :=
  [(K "states", YMap
     [(K "Both", YMap [(K "type", T "parallel"); (K "end", YBool true);
                       (K "parallelBranches", YSeq [YMap [(K "startAt", T "Fetch"); (K "states", YMap [(K "Fetch", fetch)])]])])]);
   (K "startAt", T "Both")].
Example C104_nonvacuous : one_each (YMap sample) /\ one_each fetch /\
  exists w b s, y_workflow Z tenths ascii_classes sample = Ok w /\ fst w = [Lit (chars "Both")] /\ In (chars "Both", b) (snd w) /\
    ss_branches Z b = Some [([Lit (chars "Fetch")], [(chars "Fetch", s)])] /\
    ss_timeout Z s = Some (NSub Z [Ref (chars "timeout")]) /\
    ss_retry Z s = Some [{| sy_match := [[Lit (chars "Timeout")]]; sy_interval := Some (NScalar Z (SInt Z 5)); sy_attempts := None; sy_delay := None;
                            sy_jitter := None; sy_backoff := Some (NScalar Z (SFloat Z 15%Z)) |}].
Proof.
  split; [apply once_sound; vm_compute; reflexivity|]. split; [apply once_sound; vm_compute; reflexivity|].
  eexists. eexists. eexists. split; [vm_compute; reflexivity|]. cbn [fst snd]. split; [reflexivity|]. split; [left; reflexivity|].
  split; [reflexivity|]. split; reflexivity.
Qed.
Example C105_nonvacuous :
  declared fetch sample /\ y_state Z tenths ascii_classes (YMap [(K "type", T "pass"); (K "nxt", T "Done")]) = Err YFormat /\
  ~ In (chars "intervall") (map chars ["matchErrors"; "interval"; "maxAttempts"; "maxDelay"; "jitter"; "backoffRate"]%string).
Proof.
  split; [|split; [vm_compute; reflexivity|]].
  - eapply dc_branch; [left; reflexivity|left; reflexivity|right; right; left; reflexivity|left; reflexivity|]. eapply dc_here; [right; left; reflexivity|left; reflexivity].
  - intros H. vm_compute in H. repeat (destruct H as [H|H]; [discriminate|]). exact H.
Qed.
Example C106_nonvacuous :
  (exists s, y_state Z tenths ascii_classes fetch = Ok s) /\
  exists s, y_state Z tenths ascii_classes (YMap [(K "type", T "pass"); (K "retry", YSeq [T "Timeout"])]) = Ok s /\ ss_retry Z s = Some [].
Proof. split; [eexists; vm_compute; reflexivity|]. eexists. split; [vm_compute; reflexivity|reflexivity]. Qed.
Example C107_nonvacuous :
  (exists s, y_state Z tenths ascii_classes fetch = Ok s) /\
  (exists r, y_rule Z tenths ascii_classes
    [(K "condition", YMap [(K "inputs", YSeq [T "$.a"; YInt 3]); (K "function", T "eq")]); (K "next", T "A")] = Ok r) /\
  y_catch ascii_classes [] = Ok {| sh_match := []; sh_next := []; sh_path := None |}.
Proof. split; [eexists; vm_compute; reflexivity|]. split; [eexists; vm_compute; reflexivity|reflexivity]. Qed.
Example C108_nonvacuous :
  y_retry Z tenths ascii_classes [(K "backoffRate", YInt 2)] = Err YFormat /\
  (exists r, y_retry Z tenths ascii_classes [(K "interval", YInt 2)] = Ok r /\ sy_interval Z r = Some (NScalar Z (SInt Z 2))).
Proof. split; [vm_compute; reflexivity|]. eexists. split; [vm_compute; reflexivity|reflexivity]. Qed.

Print Assumptions C104_exact.
Print Assumptions C104_never_panics.
Print Assumptions C104_key_order.
Print Assumptions C105_unknown_rejected.
Print Assumptions C105_nested_refuted.
Print Assumptions C106_kept_partial.
Print Assumptions C106_dropped_refuted.
Print Assumptions C106_unnamed_refuted.
Print Assumptions C107_required_partial.
Print Assumptions C107_missing_refuted.
Print Assumptions C108_integers_partial.
Print Assumptions C108_whole_refuted.
