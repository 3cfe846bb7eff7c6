(** C127 and C128: loading a whole JSON blueprint. *)
From Coq Require Import Permutation.
From Verif Require Import Base Chars SubstModel SubstProps ResolveModel ResolveSpec BlueprintModel BlueprintSpec BlueprintProps WfYamlModel WfYamlSpec WfYamlProofs WfYamlProps
  SpecYamlModel SpecYamlSpec SpecYamlProps SpecJsonModel SpecJsonSpec SpecJsonProofs SpecJsonProps
  WfResolveModel WfResolveSpec WfResolveProps SpecResolveModel SpecResolveSpec SpecResolveProofs SpecResolveProps LoadModel LoadSpec LoadProofs LoadProps LoadJsonModel LoadJsonSpec LoadJsonProofs.
Local Open Scope list_scope.

Section Params.
Variable F : Type.
Variable parse_f64 : text -> option F.
Variable k : classes.
Hypothesis Hk : sane k.
Variable json_text : text -> option text.
Variable of_int : Z -> F.
Variable env : text -> option text.
Notation load_json := (load_json F parse_f64 k json_text of_int env).
Notation json_loads := (json_loads F parse_f64 k json_text of_int env).
Notation declares := (resource_declares F parse_f64 k json_text).
Notation resources_declare := (resources_declare F parse_f64 k json_text).
Notation resources_stand := (resources_stand F parse_f64 env).
Notation mapping := (list (option text * yaml)).

(** C127.  A JSON blueprint loads exactly when it is one, to what it stands for: each field, resource,
    spec, reference and default accounted for. *)
Theorem C127_exact : forall m b, load_json (YMap m) = Ok b <-> json_loads m b.
Proof. intros m b. now apply json_load. Qed.
(** Anything but an object does not load; loading never panics. *)
Theorem C127_objects_only : forall d, (forall m, d <> YMap m) -> load_json d = Err EFormat.
Proof. intros d H. destruct d; try reflexivity. now elim (H m). Qed.
Theorem C127_never_panics : forall d, load_json d <> Panic /\
  (forall ty s, j_spec F parse_f64 k json_text ty d = Ok s -> resolve_spec F parse_f64 env s <> Panic) /\
  (forall x, j_metadata F parse_f64 k json_text d = Ok x -> resolve_metadata F parse_f64 env x <> Panic) /\
  (forall x, j_blueprint_metadata F parse_f64 k json_text d = Ok x -> resolve_blueprint_metadata F parse_f64 env x <> Panic).
Proof.
  intros d. destruct (C116_never_panics F parse_f64 env) as (Q1 & Q2 & Q3). destruct (C123_readable F parse_f64 k Hk json_text of_int d) as (R1 & R2 & R3).
  split; [unfold LoadJsonModel.load_json; exact (proj2 (C67_document_read _ _ _ _ _ _ _ _ _ _ _ _ _ (typed_vars F) _ _ _ d))|].
  split; [intros ty s Hs; eapply Q1, R1, Hs|]. split; [intros x Hx; apply Q2, R2, Hx|]. intros x Hx. apply Q3. intros y ->. now apply R3.
Qed.
(** Documents in which the same is found *)
Definition same_resources (m m' : mapping) : Prop :=
  forall l, (exists rs ds, In (Some (chars "resources"), YMap rs) m /\ resources_declare rs ds /\ resources_stand (last_ones ds) l) <->
            (exists rs ds, In (Some (chars "resources"), YMap rs) m' /\ resources_declare rs ds /\ resources_stand (last_ones ds) l).
Definition same_view (m m' : mapping) : Prop :=
  ((forall e, In e m -> fst e <> None) <-> (forall e, In e m' -> fst e <> None)) /\
  (forall key, In key blueprint_members -> (occurs_once key m <-> occurs_once key m')) /\
  (forall key v, In key blueprint_members -> key <> chars "resources" -> (In (Some key, v) m <-> In (Some key, v) m')) /\ same_resources m m'.
Lemma view_sym m m' : same_view m m' -> same_view m' m.
Proof. intros (A & B & C & D). split; [tauto|]. split; [intros key Hi; symmetry; auto|]. split; [intros key v Hi Hn; symmetry; auto|]. intros l. symmetry. apply D. Qed.
Lemma view_opt {A} m m' key (R : yaml -> A -> Prop) o : (forall v, In (Some key, v) m <-> In (Some key, v) m') ->
  field_opt blueprint_members (YMap m) key R o -> field_opt blueprint_members (YMap m') key R o.
Proof.
  intros H [(w & a & Hw & Ha)|[Hn Ho]]; [left|right].
  - exists w, a. split; [|exact Ha]. destruct Hw as [(? & [= <-] & Hw)|(? & ? & _)]; [|discriminate]. left. eexists. split; [reflexivity|]. now apply H.
  - split; [|exact Ho]. intros w [(? & [= <-] & Hw)|(? & ? & _)]; [|discriminate]. apply Hn. left. eexists. split; [reflexivity|]. now apply H.
Qed.
Lemma view_loads m m' b : same_view m m' -> json_loads m b -> json_loads m' b.
Proof.
  intros (A & B & C & D) (H0 & H1 & H2 & H3 & (v & l & H4 & H5) & H6 & H7 & H8 & H9 & H10). unfold LoadJsonSpec.json_loads.
  split; [now apply A|]. split; [intros key Hi; apply B; [exact Hi|now apply H1]|]. split; [apply C; [cbn; tauto|discriminate|exact H2]|]. split; [exact H3|].
  split; [exists v, l; split; [apply C; [cbn; tauto|discriminate|exact H4]|exact H5]|]. split; [eapply view_opt; [|exact H6]; intros w; apply C; [cbn; tauto|discriminate]|].
  split; [exact H7|]. split; [now apply D|]. split; [exact H9|]. eapply view_opt; [|exact H10]; intros w; apply C; [cbn; tauto|discriminate].
Qed.
Lemma view_load m m' b : same_view m m' -> (load_json (YMap m) = Ok b <-> load_json (YMap m') = Ok b).
Proof. intros H. rewrite !C127_exact. split; apply view_loads; [exact H|now apply view_sym]. Qed.
Lemma same_in m m' : (forall rs, In (Some (chars "resources"), YMap rs) m <-> In (Some (chars "resources"), YMap rs) m') -> same_resources m m'.
Proof. intros H l. split; intros (rs & ds & Hi & X); exists rs, ds; (split; [now apply H|exact X]). Qed.
(** The order of the members of the document does not matter. *)
Theorem C127_member_order : forall m m' b, Permutation m m' -> (load_json (YMap m) = Ok b <-> load_json (YMap m') = Ok b).
Proof.
  intros m m' b P. apply view_load. assert (I : forall e, In e m <-> In e m') by (intros e; split; [apply Permutation_in, P|apply Permutation_in, Permutation_sym, P]).
  split; [split; intros H e He; apply H, I, He|]. split; [|split].
  - intros key _. rewrite <- !count_once, (count_perm key m m' P). reflexivity.
  - intros key v _ _. apply I.
  - apply same_in. intros rs. apply I.
Qed.

(** C128.  What is lost.  The resources that are there in the end are those of the ten types that
    have a spec. *)
Lemma declare_in rs ds : resources_declare rs ds -> forall name, (exists r, In (name, r) ds) -> exists d, In (Some name, YMap d) rs.
Proof.
  intros H name. induction H as [|n l ds H IH|n d l ds Hi H IH|n d r l ds Hd H IH]; intros (r' & Hr).
  - destruct Hr.
  - destruct IH as (d & Hd); [eauto|]. exists d. now right.
  - destruct IH as (d' & Hd); [eauto|]. exists d'. now right.
  - destruct Hr as [[= -> <-]|Hr]; [exists d; now left|]. destruct IH as (d' & Hd'); [eauto|]. exists d'. now right.
Qed.
Lemma last_id {A} (l : list (text * A)) : NoDup (map fst l) -> last_ones l = l.
Proof.
  induction l as [|e l IH]; cbn; [reflexivity|]. intros H. apply NoDup_cons_iff in H as [N H]. rewrite (IH H). destruct (existsb _ l) eqn:E; [|reflexivity].
  apply existsb_exists in E. destruct E as (e' & Hi & E). apply teq in E. elim N. rewrite <- E. now apply List.in_map.
Qed.
Lemma declare_distinct rs ds : NoDup (keys_of rs) -> resources_declare rs ds -> NoDup (map fst ds).
Proof.
  intros N H. induction H as [|n l ds H IH|n d l ds Hi H IH|n d r l ds Hd H IH]; [constructor| | |].
  1, 2: apply IH; unfold keys_of in N |- *; cbn in N; now apply NoDup_cons_iff in N.
  unfold keys_of in N. cbn in N. apply NoDup_cons_iff in N as [N1 N2]. cbn. constructor; [|now apply IH].
  intros Hi. apply in_map_iff in Hi. destruct Hi as ([n' r'] & E & Hi). cbn in E. subst n'. apply N1. apply keys_in.
  destruct (declare_in _ _ H n (ex_intro _ r' Hi)) as (d' & Hd'). eauto.
Qed.
(** The type a resource is given first *)
Definition first_type (d : mapping) (t : text) : Prop := exists pre post, d = pre ++ (Some (chars "type"), YStr t) :: post /\ ~ In (chars "type") (keys_of pre).
Lemma split_first {A} (e e' : A) (P : A -> Prop) : forall pre pre' post post', P e -> P e' -> (forall x, In x pre -> ~ P x) -> (forall x, In x pre' -> ~ P x) ->
  pre ++ e :: post = pre' ++ e' :: post' -> e = e'.
Proof.
  induction pre as [|x pre IH]; intros [|y pre'] post post' He He' N N' E; cbn in E.
  - now injection E.
  - injection E as -> _. elim (N' y); [now left|exact He].
  - injection E as <- _. elim (N x); [now left|exact He'].
  - injection E as -> E. apply (IH pre' post post' He He'); [intros z Hz; apply N; now right|intros z Hz; apply N'; now right|exact E].
Qed.
Lemma first_once d t t' : first_type d t -> first_type d t' -> t = t'.
Proof.
  intros (pre & post & -> & N) (pre' & post' & E & N').
  assert (X := split_first (Some (chars "type"), YStr t) (Some (chars "type"), YStr t') (fun e : option text * yaml => fst e = Some (chars "type")) pre pre' post post' eq_refl eq_refl).
  assert (G : forall (l : mapping), ~ In (chars "type") (keys_of l) -> forall x, In x l -> fst x <> Some (chars "type")).
  { intros l Hl [o v] Hx Ex. cbn in Ex. subst o. apply Hl, keys_in. eauto. }
  specialize (X (G _ N) (G _ N') E). now injection X.
Qed.
(** Members given twice, required ones left out and members of a resource that are not known are
    reported. *)
Theorem C128_reported_partial : forall m b, load_json (YMap m) = Ok b ->
  (forall key, In key blueprint_members -> occurs_once key m) /\
  (forall key, In key (map chars ["version"; "transform"; "resources"]%string) -> In key (keys_of m)) /\
  (forall rs e, In (Some (chars "resources"), YMap rs) m -> In e rs -> exists name, fst e = Some name /\
     (snd e = YNull \/ exists d t, snd e = YMap d /\ only_members resource_members d /\ first_type d t)).
Proof.
  intros m b H. apply C127_exact in H. destruct H as (_ & O & Hv & _ & (v & l & Hl & _) & _ & _ & (rs & ds & Hr & Hd & _) & _). split; [exact O|]. split.
  - intros key Hi. cbn [map In] in Hi. destruct Hi as [<-|[<-|[<-|[]]]]; apply keys_in; eauto.
  - intros rs' e Hr' He. assert (E := once_same _ _ _ _ (O (chars "resources") ltac:(cbn; tauto)) Hr' Hr). injection E as ->. clear -Hd He.
    induction Hd as [|n l ds H IH|n d l ds Hi H IH|n d r l ds Hd H IH]; (destruct He as [<-|He]; [exists n; split; [reflexivity|]|now apply IH]) || destruct He.
    + now left.
    + right. destruct Hi as (On & pre & t & post & E & _ & N & _). exists d, t. split; [reflexivity|]. split; [exact On|]. exists pre, post. auto.
    + right. destruct Hd as (On & [O [(v & ty & Hv & (t & -> & Ht) & _)|[_ ?]]] & _); [|discriminate]. exists d, t. split; [reflexivity|]. split; [exact On|].
      apply in_split in Hv. destruct Hv as (pre & post & ->). exists pre, post. split; [reflexivity|]. intros Hi. apply (O pre (YStr t) post eq_refl). rewrite keys_app, in_app_iff. now left.
Qed.
Theorem C128_kept_partial : forall m b rs, load_json (YMap m) = Ok b -> In (Some (chars "resources"), YMap rs) m -> NoDup (keys_of rs) ->
  forall name, In name (map fst (rb_res _ _ _ _ _ b)) <->
    exists d t, In (Some name, YMap d) rs /\ first_type d t /\ In t (map fst json_type_names) /\ In (chars "spec") (keys_of d).
Proof.
  intros m b rs H Hrs Hn name. apply C127_exact in H. destruct H as (_ & O & _ & _ & _ & _ & _ & (rs' & ds & Hrs' & Hd & Hs) & _).
  assert (E := once_same _ _ _ _ (O (chars "resources") ltac:(cbn; tauto)) Hrs' Hrs). injection E as ->. rewrite last_id in Hs by (eapply declare_distinct; eassumption).
  clear Hrs Hrs' O. revert Hs. generalize (rb_res _ _ _ _ _ b). clear b. intros l Hs.
  assert (S : In name (map fst l) <-> exists r s, In (name, r) ds /\ r_spec _ _ _ r = Some s).
  { clear -Hs. induction Hs as [|n r me l' rs Es Hm H IH|n r s me sp l' rs Es Hm Hsp H IH].
    - cbn. split; [tauto|]. now intros (r & s & [] & _).
    - rewrite IH. split; intros (r' & s & Hi & E); exists r', s; (split; [|exact E]); [now right|]. destruct Hi as [[= <- <-]|Hi]; [congruence|exact Hi].
    - cbn. rewrite IH. split.
      + intros [<-|(r' & s' & Hi & E)]; [exists r, s; auto|exists r', s'; auto].
      + intros (r' & s' & [[= <- <-]|Hi] & E); [now left|right; eauto]. }
  rewrite S. clear S Hs l. induction Hd as [|n l ds H IH|n d l ds Hi H IH|n d r l ds Hd H IH].
  - split; [now intros (? & ? & [] & _)|now intros (? & ? & [] & _)].
  - rewrite IH by (unfold keys_of in Hn; cbn in Hn; now apply NoDup_cons_iff in Hn). split; intros (d & t & Hi & X); exists d, t; (split; [|exact X]); [now right|]. destruct Hi as [E|Hi]; [discriminate|exact Hi].
  - rewrite IH by (unfold keys_of in Hn; cbn in Hn; now apply NoDup_cons_iff in Hn). split; intros (d' & t & Hi' & X); exists d', t; (split; [|exact X]); [now right|]. destruct Hi' as [[= -> ->]|Hi']; [|exact Hi'].
    exfalso. destruct X as (Ht & Hin & Hsp). destruct Hi as (_ & pre & t' & post & -> & Ht' & N & _).
    elim Ht'. now rewrite (first_once _ t' t (ex_intro _ pre (ex_intro _ post (conj eq_refl N))) Ht).
  - assert (Hn' : NoDup (keys_of l)) by (unfold keys_of in Hn; cbn in Hn; now apply NoDup_cons_iff in Hn). specialize (IH Hn').
    destruct Hd as (_ & [O [(v & ty & Hv & (t & -> & Ht) & Ety)|[_ ?]]] & _ & _ & _ & [_ Hsp] & _); [|discriminate]. injection Ety as <-. split.
    + intros (r' & s & [[= -> <-]|Hi] & Es).
      * exists d, t. split; [now left|]. split; [|split; [apply in_map_iff; exists (t, r_type _ _ _ r); auto|]].
        -- apply in_split in Hv. destruct Hv as (pre & post & ->). exists pre, post. split; [reflexivity|]. intros Hi. apply (O pre (YStr t) post eq_refl). rewrite keys_app, in_app_iff. now left.
        -- destruct Hsp as [(v & a & Hi & _)|[_ E]]; [apply keys_in; eauto|congruence].
      * destruct (proj1 IH) as (d' & t' & Hi' & X); [eauto|]. exists d', t'. split; [now right|exact X].
    + intros (d' & t' & [[= -> <-]|Hi] & Hf & Hin & Hs).
      * destruct Hsp as [(v & a & _ & _ & E)|[E _]]; [|now elim E]. exists r, a. split; [now left|exact E].
      * destruct (proj2 IH) as (r' & s & Hi' & X); [exists d', t'; auto|]. exists r', s. split; [now right|exact X].
Qed.

Lemma declare_app a b : forall ds, resources_declare (a ++ b) ds <-> exists d1 d2, resources_declare a d1 /\ resources_declare b d2 /\ ds = d1 ++ d2.
Proof.
  induction a as [|e a IH]; intros ds; cbn [app].
  - split; [intros H; exists [], ds; split; [constructor|auto]|]. intros (d1 & d2 & H1 & H2 & ->). inversion H1. exact H2.
  - split.
    + intros H. inversion H as [|n l rs H'|n m l rs Hi H'|n m r l rs Hd H']; subst; apply IH in H'; destruct H' as (d1 & d2 & H1 & H2 & ->).
      * exists d1, d2. split; [now constructor|auto].
      * exists d1, d2. split; [now constructor|auto].
      * exists ((n, r) :: d1), d2. split; [now constructor|auto].
    + intros (d1 & d2 & H1 & H2 & ->). inversion H1 as [|n l rs H'|n m l rs Hi H'|n m r l rs Hd H']; subst; cbn [app]; constructor; try assumption; apply IH; eauto.
Qed.
(** A document whose resources are changed *)
Lemma swap_view pre post rs rs' :
  (forall l, (exists ds, resources_declare rs ds /\ resources_stand (last_ones ds) l) <-> (exists ds, resources_declare rs' ds /\ resources_stand (last_ones ds) l)) ->
  ~ In (chars "resources") (keys_of (pre ++ post)) ->
  same_view (pre ++ (Some (chars "resources"), YMap rs) :: post) (pre ++ (Some (chars "resources"), YMap rs') :: post).
Proof.
  intros H N.
  assert (U : forall v rs, In (Some (chars "resources"), v) (pre ++ (Some (chars "resources"), YMap rs) :: post) <-> v = YMap rs).
  { intros v x. rewrite in_app_iff. cbn [In]. split; [|intros ->; auto]. rewrite keys_app, in_app_iff in N. intros [Hi|[E|Hi]]; [|now injection E|]; elim N; [left|right]; apply keys_in; eauto. }
  split; [|split; [|split]].
  - split; intros G e He; apply in_app_or in He; destruct He as [He|[<-|He]]; try discriminate; apply G, in_or_app; [left|right; right|left|right; right]; exact He.
  - intros key _. rewrite <- !count_once, !count_app, !count_cons. reflexivity.
  - intros key v _ Hne. rewrite !in_app_iff. cbn [In]. split; (intros [Hi|[E|Hi]]; [auto|injection E as <- _; now elim Hne|auto]).
  - intros l. split; intros (r & ds & Hi & Hd & Hs); apply U in Hi; injection Hi as ->; [destruct (proj1 (H l)) as (ds' & Hd' & Hs')|destruct (proj2 (H l)) as (ds' & Hd' & Hs')]; eauto; [exists rs', ds'|exists rs, ds']; (split; [now apply U|auto]).
Qed.
Lemma last_fresh {A} (a b : list (text * A)) name x : ~ In name (map fst a) -> ~ In name (map fst b) ->
  exists a' b', last_ones (a ++ (name, x) :: b) = a' ++ (name, x) :: b' /\ last_ones (a ++ b) = a' ++ b'.
Proof.
  intros Na Nb. induction a as [|e a IH].
  - exists [], (last_ones b). cbn. destruct (existsb _ b) eqn:E; [|auto]. apply existsb_exists in E. destruct E as (e' & Hi & E). apply teq in E. cbn in E. elim Nb. rewrite <- E. now apply List.in_map.
  - cbn in Na. destruct IH as (a' & b' & E1 & E2); [tauto|]. cbn [app last_ones]. rewrite E1, E2.
    assert (E : existsb (fun e' => text_eqb (fst e') (fst e)) (a ++ (name, x) :: b) = existsb (fun e' => text_eqb (fst e') (fst e)) (a ++ b)).
    { rewrite !existsb_app. cbn [existsb fst]. destruct (text_eqb_spec name (fst e)) as [E|_]; [elim Na; left; now symmetry|reflexivity]. }
    rewrite E. destruct (existsb _ (a ++ b)); [exists a', b'|exists (e :: a'), b']; auto.
Qed.
Lemma stand_drop a name r b me : r_spec _ _ _ r = None -> metadata_stands F parse_f64 env (r_meta _ _ _ r) me -> forall l, resources_stand (a ++ (name, r) :: b) l <-> resources_stand (a ++ b) l.
Proof.
  intros Hn Hm. induction a as [|[n x] a IH]; intros l; cbn [app].
  - split; [intros H; inversion H as [| |? ? s ? ? ? ? E]; subst; [assumption|congruence]|]. intros H. eapply rs_dropped; eassumption.
  - split; intros H; inversion H; subst; first [eapply rs_kept; [eassumption..|now apply IH]|eapply rs_dropped; [eassumption..|now apply IH]].
Qed.
(** But some of what is written in a document is lost without a word: a resource that has no spec, a
    null, all but the last of the resources with the same name, and a member the blueprint does not
    know. *)
Theorem C128_lost_refuted : forall pre post a b bp,
  let with_resources rs := load_json (YMap (pre ++ (Some (chars "resources"), YMap rs) :: post)) in
  ~ In (chars "resources") (keys_of (pre ++ post)) ->
  (forall name d r me, declares d r -> r_spec _ _ _ r = None -> metadata_stands F parse_f64 env (r_meta _ _ _ r) me -> ~ In name (keys_of (a ++ b)) ->
     (with_resources (a ++ (Some name, YMap d) :: b) = Ok bp <-> with_resources (a ++ b) = Ok bp)) /\
  (forall name, with_resources (a ++ (Some name, YNull) :: b) = Ok bp <-> with_resources (a ++ b) = Ok bp) /\
  (forall name d d' c r r', declares d r -> declares d' r' ->
     (with_resources (a ++ (Some name, YMap d) :: b ++ (Some name, YMap d') :: c) = Ok bp <-> with_resources (a ++ b ++ (Some name, YMap d') :: c) = Ok bp)) /\
  (forall key v, ~ In key blueprint_members ->
     (load_json (YMap (pre ++ (Some key, v) :: post)) = Ok bp <-> load_json (YMap (pre ++ post)) = Ok bp)).
Proof.
  intros pre post a b bp with_resources N.
  assert (W : forall rs rs', (forall l, (exists ds, resources_declare rs ds /\ resources_stand (last_ones ds) l) <-> (exists ds, resources_declare rs' ds /\ resources_stand (last_ones ds) l)) ->
    (with_resources rs = Ok bp <-> with_resources rs' = Ok bp)).
  { intros rs rs' H. apply view_load. now apply swap_view. }
  assert (Det : forall d r r', declares d r -> declares d r' -> r = r').
  { intros d r r' H H'. apply (jresource_ok _ _ _ _ _ _ _ _ _ (meta_iff F parse_f64 k Hk json_text) sel_iff (spec_iff F parse_f64 k Hk json_text)) in H, H'. congruence. }
  assert (Ign : forall d r, declares d r -> ~ resource_ignored F parse_f64 k json_text d).
  { intros d r H H'. apply (jresource_ok _ _ _ _ _ _ _ _ _ (meta_iff F parse_f64 k Hk json_text) sel_iff (spec_iff F parse_f64 k Hk json_text)) in H.
    apply (jresource_ignored _ _ _ _ _ _ _ _ _ (meta_iff F parse_f64 k Hk json_text) sel_iff (spec_iff F parse_f64 k Hk json_text)) in H'. congruence. }
  assert (One : forall name d r l ds, declares d r -> (resources_declare ((Some name, YMap d) :: l) ds <-> exists ds', resources_declare l ds' /\ ds = (name, r) :: ds')).
  { intros name d r l ds Hd. split.
    - intros H. inversion H as [| |? ? ? ? Hi H'|? ? r' ? ? Hd' H']; subst; [elim (Ign d r Hd Hi)|]. rewrite (Det d r r' Hd Hd'). eauto.
    - intros (ds' & H & ->). now constructor. }
  assert (Fresh : forall name l ds, resources_declare l ds -> ~ In name (keys_of l) -> ~ In name (map fst ds)).
  { intros name l ds H Hn Hi. apply in_map_iff in Hi. destruct Hi as ([n r] & E & Hi). cbn in E. subst n. destruct (declare_in _ _ H name (ex_intro _ r Hi)) as (d & Hd). apply Hn, keys_in. eauto. }
  split; [|split; [|split]].
  - intros name d r me Hd Hsp Hme Hn. apply W. intros l. rewrite keys_app, in_app_iff in Hn. split; intros (ds & H & Hs).
    + apply declare_app in H. destruct H as (d1 & d2 & H1 & H2 & ->). apply (One name d r b d2 Hd) in H2. destruct H2 as (d3 & H3 & ->). exists (d1 ++ d3). split; [apply declare_app; eauto|].
      destruct (last_fresh d1 d3 name r) as (a' & b' & E1 & E2); [eapply Fresh; [eassumption|tauto]..|]. rewrite E1 in Hs. rewrite E2. eapply stand_drop; eassumption.
    + apply declare_app in H. destruct H as (d1 & d3 & H1 & H3 & ->). exists (d1 ++ (name, r) :: d3). split; [apply declare_app; exists d1, ((name, r) :: d3); split; [exact H1|split; [apply (One name d r b); eauto|reflexivity]]|].
      destruct (last_fresh d1 d3 name r) as (a' & b' & E1 & E2); [eapply Fresh; [eassumption|tauto]..|]. rewrite E2 in Hs. rewrite E1. eapply stand_drop; eassumption.
  - intros name. apply W. intros l. assert (X : forall ds, resources_declare (a ++ (Some name, YNull) :: b) ds <-> resources_declare (a ++ b) ds).
    { intros ds. rewrite !declare_app. split; intros (d1 & d2 & H1 & H2 & E); exists d1, d2; (split; [exact H1|split; [|exact E]]); [now inversion H2|now constructor]. }
    setoid_rewrite X. reflexivity.
  - intros name d d' c r r' Hd Hd'. apply W. intros l. split; intros (ds & H & Hs).
    + apply declare_app in H. destruct H as (d1 & d2 & H1 & H2 & ->). apply (One name d r _ d2 Hd) in H2. destruct H2 as (d3 & H3 & ->). apply declare_app in H3. destruct H3 as (d4 & d5 & H4 & H5 & ->).
      pose proof H5 as H5'. apply (One name d' r' _ d5 Hd') in H5. destruct H5 as (d6 & H6 & ->). rewrite last_drop in Hs. exists (d1 ++ d4 ++ (name, r') :: d6). split; [|exact Hs]. apply declare_app. exists d1, (d4 ++ (name, r') :: d6). split; [exact H1|]. split; [apply declare_app; eauto|reflexivity].
    + apply declare_app in H. destruct H as (d1 & d2 & H1 & H2 & ->). apply declare_app in H2. destruct H2 as (d4 & d5 & H4 & H5 & ->). pose proof H5 as H5'. apply (One name d' r' _ d5 Hd') in H5. destruct H5 as (d6 & H6 & ->).
      exists (d1 ++ (name, r) :: d4 ++ (name, r') :: d6). split; [|now rewrite last_drop]. apply declare_app. exists d1, ((name, r) :: d4 ++ (name, r') :: d6). split; [exact H1|]. split; [|reflexivity].
      apply (One name d r); [exact Hd|]. exists (d4 ++ (name, r') :: d6). split; [apply declare_app; eauto|reflexivity].
  - intros key v Hkey. apply view_load. split; [|split; [|split]].
    + split; intros G e He.
      * apply G. apply in_app_or in He. apply in_or_app. destruct He as [He|He]; [now left|right; now right].
      * apply in_app_or in He. destruct He as [He|[<-|He]]; [|discriminate|]; apply G, in_or_app; [now left|now right].
    + intros key' Hk'. rewrite <- !count_once, !count_app, count_cons. cbn [fst]. destruct (text_eqb_spec key key') as [->|_]; [now elim Hkey|reflexivity].
    + intros key' w Hk' _. rewrite !in_app_iff. cbn [In]. split; [intros [H|[E|H]]; [auto|injection E as -> _; now elim Hkey|auto]|intros [H|H]; auto].
    + apply same_in. intros rs. rewrite !in_app_iff. cbn [In]. split; [intros [H|[E|H]]; [auto|injection E as -> _; elim Hkey; cbn; tauto|auto]|intros [H|H]; auto].
Qed.
End Params.

(** * A document that meets the hypotheses *)
Definition jdoc (extra : list (option text * yaml)) : list (option text * yaml) :=
  [(K "version", T "2025-05-12"); (K "transform", YSeq [T "celerity-2025-08-01"; T "other"]);
   (K "variables", YMap [(K "size", YMap [(K "type", T "integer"); (K "default", YInt 5)])]);
   (K "resources", YMap ([(K "save", YMap [(K "type", T "celerity/handler"); (K "metadata", YMap [(K "displayName", T "Save ${variables.stage}")]);
                                           (K "linkSelector", YMap [(K "byLabel", YMap [(K "app", T "orders")])]); (K "spec", YMap [(K "handler", T "save"); (K "timeout", YInt 30)])]);
                          (K "inbox", YMap [(K "description", T "Orders"); (K "type", T "celerity/queue"); (K "spec", YMap [(K "fifo", YBool true)])]);
                          (K "table", YMap [(K "type", T "aws/dynamodb/table"); (K "spec", YMap [])]);
                          (K "nothing", YNull)] ++ extra));
   (K "metadata", YMap [(K "sharedHandlerConfig", YMap [(K "runtime", T "nodejs22"); (K "memory", YInt 512)])]);
   (K "notes", T "unused")].
Notation lj := (load_json Z tenths ascii_classes no_json (fun z => z) values_for).
Example C127_nonvacuous :
  (exists b, lj (YMap (jdoc [])) = Ok b /\ map fst (rb_res _ _ _ _ _ b) = [chars "save"; chars "inbox"] /\
     rb_transform _ _ _ _ _ b = Some [chars "celerity-2025-08-01"; chars "other"] /\ map (fun r => rme_name Z (rr_meta _ _ _ (snd r))) (rb_res _ _ _ _ _ b) = [chars "Save 7"; []] /\
     (exists s, rb_meta _ _ _ _ _ b = Some (Some s) /\ rhc_memory s = Some 512%Z)) /\
  (exists e, load_json Z tenths ascii_classes no_json (fun z => z) (fun _ => None) (YMap (jdoc [])) = Err e) /\
  (exists e, lj (YMap (jdoc [(K "late", YMap [(K "spec", YMap [(K "name", T "x")]); (K "type", T "celerity/bucket")])])) = Err e).
Proof.
  split; [|split; eexists; vm_compute; reflexivity].
  eexists. split; [vm_compute; reflexivity|]. split; [reflexivity|]. split; [reflexivity|]. split; [reflexivity|]. eexists. split; reflexivity.
Qed.
Example C128_nonvacuous :
  (exists b, lj (YMap (jdoc [(K "empty", YMap [(K "type", T "celerity/bucket")])])) = Ok b /\ lj (YMap (jdoc [])) = Ok b) /\
  (exists b, lj (YMap (jdoc [(K "a", YMap [(K "type", T "celerity/bucket"); (K "spec", YMap [])]); (K "a", YMap [(K "type", T "celerity/queue"); (K "spec", YMap [])])])) = Ok b /\
             lj (YMap (jdoc [(K "a", YMap [(K "type", T "celerity/queue"); (K "spec", YMap [])])])) = Ok b) /\
  ~ In (chars "notes") blueprint_members /\
  NoDup (keys_of [(K "save", YNull); (K "inbox", YNull)]) /\
  (exists e, lj (YMap (jdoc [(K "a", YMap [(K "type", T "celerity/bucket"); (K "spce", YMap [])])])) = Err e).
Proof.
  split; [eexists; split; [vm_compute; reflexivity|vm_compute; reflexivity]|]. split; [eexists; split; [vm_compute; reflexivity|vm_compute; reflexivity]|].
  split; [intros H; vm_compute in H; repeat (destruct H as [H|H]; [discriminate|]); exact H|]. split; [apply nodupb_ok; vm_compute; reflexivity|]. eexists; vm_compute; reflexivity.
Qed.

Print Assumptions C127_exact.
Print Assumptions C127_objects_only.
Print Assumptions C127_never_panics.
Print Assumptions C127_member_order.
Print Assumptions C128_reported_partial.
Print Assumptions C128_kept_partial.
Print Assumptions C128_lost_refuted.
