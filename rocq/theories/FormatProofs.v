(** Proofs for [FormatProps]: resources that are neither APIs, handlers nor handler configs do not
    matter to an application, and the rest of a portable document is the same in both formats. *)
From Coq Require Import Permutation.
From Verif Require Import Base Chars SubstModel SubstProps ResolveModel ResolveSpec BlueprintModel WfYamlModel WfYamlSpec WfYamlProofs WfYamlProps
  SpecYamlModel SpecYamlSpec SpecYamlProps SpecJsonModel SpecJsonSpec SpecJsonProps
  WfResolveModel WfResolveSpec SpecResolveModel SpecResolveSpec SpecResolveProps LoadModel LoadSpec LoadProps LoadJsonModel LoadJsonSpec LoadJsonProps
  PortableSpec PortableProofs PortableDocSpec PortableProps.
From Verif Require ApiModel ApiSpec.
From Verif Require Import SetupModel.
Local Open Scope list_scope.

(** * What an application depends on *)
Definition counts (e : text * ApiModel.resource) : bool := negb (ApiModel.rtype_eqb (ApiModel.r_type (snd e)) ApiModel.TOther).
Definition essential (b : ApiModel.blueprint) : ApiModel.blueprint := ApiModel.mk_blueprint (filter counts (ApiModel.b_resources b)) (ApiModel.b_shared b).
Lemma filter_counts f l : (forall e, f e = true -> counts e = true) -> filter f (filter counts l) = filter f l.
Proof.
  intros H. induction l as [|e l IH]; [reflexivity|]. cbn. destruct (counts e) eqn:C; cbn; [now rewrite IH|].
  destruct (f e) eqn:E; [rewrite (H _ E) in C; discriminate|exact IH].
Qed.
Lemma find_counts f l : (forall e : text * ApiModel.resource, f e = true -> counts e = true) -> find f (filter counts l) = find f l.
Proof.
  intros H. induction l as [|e l IH]; [reflexivity|]. cbn. destruct (counts e) eqn:C; cbn; [now rewrite IH|].
  destruct (f e) eqn:E; [rewrite (H _ E) in C; discriminate|exact IH].
Qed.
Lemma type_counts t e : ApiModel.rtype_eqb (ApiModel.r_type (snd e)) t = true -> t <> ApiModel.TOther -> counts e = true.
Proof. unfold counts. destruct (ApiModel.r_type (snd e)), t; cbn; congruence. Qed.
Lemma select_essential sel b t : t <> ApiModel.TOther -> ApiModel.select_resources sel (essential b) t = ApiModel.select_resources sel b t.
Proof.
  intros T. unfold ApiModel.select_resources. destruct sel as [l|]; [|reflexivity]. induction l as [|kv l IH]; [reflexivity|]. cbn [flat_map]. rewrite IH. f_equal.
  apply filter_counts. intros e. unfold ApiModel.matches. destruct (ApiModel.r_labels (snd e)) as [ls|]; [|discriminate]. destruct (option_map _ _); [|discriminate]. intros E. exact (type_counts t e E T).
Qed.
Lemma api_essential b name : ApiModel.get_api (essential b) name = ApiModel.get_api b name.
Proof.
  unfold ApiModel.get_api. f_equal. apply find_counts. intros e H. destruct name as [n|]; [apply andb_prop in H; destruct H as [_ H]|]; apply (type_counts ApiModel.TApi); [exact H|discriminate|exact H|discriminate].
Qed.
Lemma define_essential b nr p : ApiModel.define (essential b) nr p = ApiModel.define b nr p.
Proof. unfold ApiModel.define. now rewrite select_essential by discriminate. Qed.
Lemma collect_essential b a at_ ts : forall seen, ApiModel.collect (essential b) a at_ ts seen = ApiModel.collect b a at_ ts seen.
Proof.
  induction ts as [|nr ts IH]; intros seen; [reflexivity|]. cbn. destruct (ApiModel.annotated a nr); [|apply IH]. destruct (existsb _ seen); [reflexivity|].
  destruct (at_ l); [|reflexivity|reflexivity]. rewrite define_essential. destruct (ApiModel.define b nr a0); [|reflexivity|reflexivity]. now rewrite IH.
Qed.
Lemma setup_essential b name health : ApiModel.setup (essential b) name health = ApiModel.setup b name health.
Proof.
  unfold ApiModel.setup, ApiModel.collect_api_config. rewrite api_essential. destruct (ApiModel.get_api b name); [|reflexivity].
  rewrite select_essential by discriminate. unfold ApiModel.collect_http, ApiModel.collect_ws. rewrite collect_essential. destruct (ApiModel.collect b ApiModel.a_http _ _ _) as [[hs seen]|e|]; [|reflexivity|reflexivity].
  now rewrite collect_essential.
Qed.

(** * Orders *)
Definition paired (x y : text * ApiModel.resource) : Prop := fst x = fst y /\ ApiSpec.same_resource (snd x) (snd y).
Lemma paired_counts x y : paired x y -> counts x = counts y.
Proof. intros [_ [E _]]. unfold counts. now rewrite E. Qed.
Lemma paired_filter l l' : Forall2 paired l l' -> Forall2 paired (filter counts l) (filter counts l').
Proof. induction 1 as [|x y l l' H F IH]; [constructor|]. cbn. rewrite <- (paired_counts _ _ H). destruct (counts x); [now constructor|exact IH]. Qed.
Lemma perm_filter {A} (f : A -> bool) l l' : Permutation l l' -> Permutation (filter f l) (filter f l').
Proof.
  induction 1 as [|x l l' H IH|x y l|l1 l2 l3 H1 IH1 H2 IH2]; [constructor| | |now transitivity (filter f l2)].
  - cbn. destruct (f x); [now constructor|exact IH].
  - cbn. destruct (f x), (f y); try apply Permutation_refl. apply perm_swap.
Qed.
Lemma filter_twice {A} (f : A -> bool) l : filter f (filter f l) = filter f l.
Proof. induction l as [|x l IH]; [reflexivity|]. cbn. destruct (f x) eqn:E; cbn; [rewrite E; now f_equal|exact IH]. Qed.
Lemma perm_split {A} (f : A -> bool) l : Permutation l (filter f l ++ filter (fun x => negb (f x)) l).
Proof.
  induction l as [|x l IH]; [constructor|]. cbn. destruct (f x); cbn; [now constructor|]. etransitivity; [apply perm_skip; exact IH|]. apply Permutation_middle.
Qed.
Lemma filter_none {A} (f g : A -> bool) l : (forall x, f x = true -> g x = false) -> filter g (filter f l) = [].
Proof. intros H. induction l as [|x l IH]; [reflexivity|]. cbn. destruct (f x) eqn:E; [cbn; now rewrite (H _ E)|exact IH]. Qed.
Lemma same_map_self {A} (o : option (list (text * A))) : ApiSpec.same_map o o.
Proof. destruct o; cbn; [apply Permutation_refl|exact I]. Qed.
Lemma paired_self l : Forall2 paired l l.
Proof. induction l as [|x l IH]; constructor; [|exact IH]. split; [reflexivity|]. split; [reflexivity|]. split; [reflexivity|]. split; [apply same_map_self|]. split; apply same_map_self. Qed.
(** Every order of one has its counterpart for the other. *)
Lemma reordered b1 b2 b' : essential b1 = essential b2 -> ApiSpec.same_blueprint b1 b' -> exists b'', ApiSpec.same_blueprint b2 b'' /\ essential b'' = essential b'.
Proof.
  intros E (Es & l & Pl & Fl). unfold essential in E. injection E as Er Esh.
  exists (ApiModel.mk_blueprint (filter counts (ApiModel.b_resources b') ++ filter (fun x => negb (counts x)) (ApiModel.b_resources b2)) (ApiModel.b_shared b2)). split.
  - split; [reflexivity|]. exists (filter counts l ++ filter (fun x => negb (counts x)) (ApiModel.b_resources b2)). split.
    + etransitivity; [apply (perm_split counts)|]. apply Permutation_app_tail. rewrite <- Er. now apply perm_filter.
    + apply Forall2_app; [now apply paired_filter|apply paired_self].
  - unfold essential. cbn. rewrite filter_app, filter_twice, (filter_none (fun x => negb (counts x)) counts) by (intros x; destruct (counts x); cbn; congruence).
    rewrite app_nil_r. congruence.
Qed.
Section Started.
Variable F : Type.
Variable show_i : Z -> text.
Variable show_f : F -> text.
Lemma started_essential b1 b2 name health res : essential (view F show_i show_f b1) = essential (view F show_i show_f b2) ->
  started F show_i show_f b1 name health res -> started F show_i show_f b2 name health res.
Proof.
  intros E [b' S]. destruct (reordered _ _ _ E S) as (b'' & S' & E'). rewrite <- setup_essential, <- E', setup_essential. now constructor.
Qed.
End Started.

(** * The two readers *)
Section Params.
Variable F : Type.
Variable parse_f64 : text -> option F.
Variable k : classes.
Hypothesis Hk : sane k.
Variable json_text : text -> option text.
Variable of_int : Z -> F.
Variable env : text -> option text.
Notation portable := (portable json_text).
Definition both_know (e : text * loaded_resource F) : bool :=
  match rr_type _ _ _ (snd e) with TConfig | TBucket | TTopic | TQueue => false | _ => true end.
Lemma only_json t ty : In (t, ty) json_type_names -> In t json_only_types -> match ty with TConfig | TBucket | TTopic | TQueue => false | _ => true end = false.
Proof.
  intros H1 H2. cbn in H1. repeat (destruct H1 as [[= <- <-]|H1]; [first [reflexivity|exfalso; clear -H2; cbn in H2; repeat (destruct H2 as [H2|H2]; [discriminate H2|]); exact H2]|]). destruct H1.
Qed.
Lemma not_only_json t ty : In (t, ty) LoadSpec.type_names -> match ty with TConfig | TBucket | TTopic | TQueue => false | _ => true end = true.
Proof. intros H. cbn in H. repeat (destruct H as [[= <- <-]|H]; [reflexivity|]). destruct H. Qed.
Lemma resources_known rs ds l l' : portable (YMap rs) ->
  resources_declare F parse_f64 k json_text rs ds -> resources_stand F parse_f64 env ds l -> resources_load F parse_f64 k env (named_maps rs) l' -> filter both_know l = l'.
Proof.
  intros P H. assert (Pd : forall name d, In (Some name, YMap d) rs -> portable (YMap d)) by (intros; eapply portable_map; eassumption). clear P. revert l l'.
  induction H as [|name rs ds H IH|name d rs ds Hi H IH|name d r rs ds Hd H IH]; intros l l' Hs Hl.
  - cbn in Hl. inversion Hs; inversion Hl; reflexivity.
  - cbn in Hl. apply IH; auto; intros; eapply Pd; right; eassumption.
  - assert (Hl' : resources_load F parse_f64 k env (named_maps rs) l'); [|apply IH; auto; intros; eapply Pd; right; eassumption].
    cbn in Hl. inversion Hl as [|n m t l1 rs1 Ht Hn Hr|n m r l1 rs1 Hr Hrest]; subst; [exact Hr|]. exfalso.
    destruct Hi as (_ & pre & t & post & E & Hn & _). destruct Hr as ((t' & Ht' & Hty) & _). assert (Hi : In (Some (chars "type"), YStr t) d) by (rewrite E; apply in_elt).
    pose proof (keys_once _ _ _ _ (one_each_keys _ (proj1 (Pd name d (or_introl eq_refl)))) Hi Ht') as X. injection X as ->. apply Hn. apply in_map_iff. eexists. split; [|exact (proj1 (six_types _ _ Hty))]. reflexivity.
  - pose proof (Pd name d (or_introl eq_refl)) as P. pose proof (one_each_keys _ (proj1 P)) as Nd.
    assert (Rest : forall l l', resources_stand F parse_f64 env ds l -> resources_load F parse_f64 k env (named_maps rs) l' -> filter both_know l = l') by (intros; apply IH; auto; intros; eapply Pd; right; eassumption).
    pose proof Hd as Hd0. destruct Hd0 as (_ & (_ & [(v & a & Hv & (u & -> & Hu) & Ea)|(_ & [=])]) & _). injection Ea as Ea.
    cbn in Hl. inversion Hl as [|n m t l1 rs1 Ht Hn Hr|n m r1 l1 rs1 Hr Hrest]; subst.
    + pose proof (keys_once _ _ _ _ Nd Hv Ht) as X. injection X as ->.
      destruct (ten_types _ _ Hu) as [Hu'|Hu']; [elim Hn; apply in_map_iff; eexists; split; [|exact Hu']; reflexivity|].
      inversion Hs as [|n r2 me l2 rs2 Hnone Hme Hst|n r2 s me sp l2 rs2 Hsome Hme Hsp Hst]; subst; [now apply Rest|].
      cbn [filter]. unfold both_know at 1. cbn [snd rr_type]. rewrite (only_json _ _ Hu Hu'). now apply Rest.
    + inversion Hs as [|n r2 me l2 rs2 Hnone Hme Hst|n r2 s me sp l2 rs2 Hsome Hme Hsp Hst]; subst.
      * exfalso. destruct Hd as (_ & _ & _ & _ & _ & (_ & [(v & a & _ & _ & E)|(Hn & _)]) & _); [congruence|]. destruct Hr as (_ & _ & _ & _ & (w & Hw & _)). apply Hn. apply keys_in. eauto.
      * pose proof Hr as ((t' & Ht' & Hty') & _). pose proof (keys_once _ _ _ _ Nd Hv Ht') as X. injection X as ->.
        rewrite (resource_same F parse_f64 k json_text env _ _ _ _ _ _ P Hd Hsome Hme Hsp Hr). cbn [filter]. unfold both_know at 1. cbn [snd].
        rewrite (not_only_json _ _ Hty'). f_equal. now apply Rest.
Qed.
Variable show_i : Z -> text.
Variable show_f : F -> text.
Notation view := (view F show_i show_f).
Lemma unknown_skipped l : filter counts (map (view_entry (view_resource F show_i show_f)) l) = filter counts (map (view_entry (view_resource F show_i show_f)) (filter both_know l)).
Proof.
  induction l as [|[n r] l IH]; [reflexivity|]. cbn [map filter]. destruct (both_know (n, r)) eqn:E; cbn [map filter]; [now rewrite IH|].
  assert (C : counts (view_entry (view_resource F show_i show_f) (n, r)) = false).
  { unfold counts, view_entry, view_resource. cbn. unfold both_know in E. cbn in E. destruct (rr_type _ _ _ r); try discriminate E; reflexivity. }
  rewrite C. exact IH.
Qed.
Definition shared_of (o : option (option rshared)) : option ApiModel.source := match o with Some (Some x) => Some (view_shared x) | _ => None end.
Lemma same_essential m b b' : portable (YMap m) -> (forall v, In (Some (chars "metadata"), v) m -> not_array v) ->
  load_json F parse_f64 k json_text of_int env (YMap m) = Ok b -> load F parse_f64 k env [YMap m] = Ok b' -> essential (view b) = essential (view b').
Proof.
  intros P NM Hj Hy. apply (C127_exact F parse_f64 k Hk) in Hj. apply (C120_exact F parse_f64 k env Hk) in Hy; [|exact (proj1 P)].
  pose proof (one_each_keys _ (proj1 P)) as Nd. pose proof (fun key w => portable_map json_text _ (Some key) w P) as Q.
  destruct Hj as (_ & _ & _ & _ & _ & _ & _ & (rs & ds & Hrs & Jd & Js) & _ & J5).
  destruct Hy as (_ & _ & _ & _ & (rs' & Hrs' & Yl) & _ & Y5).
  unfold essential, SetupModel.view. cbn [ApiModel.b_resources ApiModel.b_shared]. fold (shared_of (rb_meta _ _ _ _ _ b)) (shared_of (rb_meta _ _ _ _ _ b')). f_equal.
  - pose proof (keys_once _ _ _ _ Nd Hrs Hrs') as X. injection X as <-. pose proof (Q _ _ Hrs) as Pr.
    rewrite last_id in Js by (eapply declare_distinct; [apply one_each_keys; exact (proj1 Pr)|exact Jd]).
    rewrite unknown_skipped. now rewrite (resources_known rs ds _ _ Pr Jd Js Yl).
  - destruct b as [b1 b2 b3 b4 b5], b' as [c1 c2 c3 c4 c5]. cbn [rb_meta] in *. clear b1 b2 b3 b4 c1 c2 c3 c4 Js Yl.
    destruct J5 as [(w & a & Hw & _ & (x & (St & Jx) & Jb) & ->)|(N & ->)].
    + apply has_map in Hw. destruct St as [(mm & -> & St)|(l & -> & St)]; [|elim (NM _ Hw l eq_refl)]. pose proof (Q _ _ Hw) as Pm. pose proof (one_each_keys _ (proj1 Pm)) as Ndm.
      destruct Jx as [(u' & a' & Hu' & _ & Ja & ->)|(N & ->)].
      * apply has_map in Hu'. inversion Jb as [|? r' Rr]; subst. destruct Y5 as [(mm2 & w2 & r2 & Hm2 & Hw2 & (y & Hy & Hr2) & ->)|(N & ->)].
        -- pose proof (keys_once _ _ _ _ Nd Hm2 Hw) as X. injection X as ->. pose proof (keys_once _ _ _ _ Ndm Hw2 Hu') as X. subst u'. cbn. do 2 f_equal.
           eapply (shared_agree F parse_f64 k json_text env (YMap w2)); [eapply portable_map; eassumption|exact Ja|exists w2; split; [reflexivity|exact Hy]|exact Rr|exact Hr2].
        -- exfalso. assert (Na : not_array u'). { destruct P as (_ & _ & _ & Po & _). apply (Po (chars "sharedHandlerConfig")); [cbn; tauto|]. exists mm. split; [|exact Hu']. eapply in_map; [exact Hw|constructor]. }
           destruct Ja as (Sj & _). destruct Sj as [(um & -> & _)|(l & -> & _)]; [exact (N mm um Hw Hu')|exact (Na l eq_refl)].
      * inversion Jb; subst. destruct Y5 as [(mm2 & w2 & r2 & Hm2 & Hw2 & _ & ->)|(_ & ->)]; [|reflexivity]. exfalso. pose proof (keys_once _ _ _ _ Nd Hm2 Hw) as X. injection X as ->. specialize (N (YMap w2)). discriminate N. apply has_map. exact Hw2.
    + destruct Y5 as [(mm & u & r & Hm & Hu & _)|(_ & ->)]; [|reflexivity]. exfalso. specialize (N (YMap mm)). discriminate N. apply has_map. exact Hm.
Qed.
End Params.
