(** C149: whether its blueprint is written in JSON or in YAML does not matter to an application,
    and where it does.  Models: SetupModel.v, LoadModel.v, LoadJsonModel.v and ApiModel.v.
    Vocabulary: PortableSpec.v and SetupSpec.v. *)
From Coq Require Import Permutation.
From Verif Require Import Base Chars SubstModel SubstProps ResolveModel ResolveSpec BlueprintModel WfYamlModel WfYamlSpec WfYamlProofs WfYamlProps
  SpecYamlModel SpecYamlProps SpecJsonModel SpecJsonSpec SpecJsonProps WfResolveSpec SpecResolveModel SpecResolveSpec
  LoadModel LoadProps LoadJsonModel LoadJsonSpec LoadJsonProofs LoadJsonProps PortableSpec PortableProofs PortableProps.
From Verif Require ApiModel ApiProofs.
From Verif Require Import ApiSpec SetupModel SetupSpec SetupProps FormatProofs.
Local Open Scope list_scope.

(** Where a collected handler comes from *)
Lemma collected_from b a at_ ts : forall seen hs seen', ApiModel.collect b a at_ ts seen = Ok (hs, seen') ->
  forall h, In h hs -> exists nr m, In nr ts /\ ApiModel.annotated a nr = Some m /\ ApiModel.h_handler h = fst nr.
Proof.
  induction ts as [|nr ts IH]; intros seen hs seen' H h Hh; cbn in H; [injection H as <- <-; destruct Hh|].
  assert (L : forall seen hs seen', ApiModel.collect b a at_ ts seen = Ok (hs, seen') -> In h hs -> exists nr' m, In nr' (nr :: ts) /\ ApiModel.annotated a nr' = Some m /\ ApiModel.h_handler h = fst nr').
  { intros s l s' E Hl. destruct (IH s l s' E h Hl) as (nr' & m & Hi & Hm). exists nr', m. split; [now right|exact Hm]. }
  destruct (ApiModel.annotated a nr) as [m|] eqn:E; [|exact (L _ _ _ H Hh)]. destruct (existsb _ seen); [discriminate|]. destruct (at_ m) as [p| |]; try discriminate.
  destruct (ApiModel.define b nr p) as [h'| |] eqn:D; try discriminate. destruct (ApiModel.collect b a at_ ts _) as [[hs1 seen1]| |] eqn:C; try discriminate. injection H as <- <-.
  destruct Hh as [<-|Hh]; [|exact (L _ _ _ C Hh)]. exists nr, m. split; [now left|]. split; [exact E|].
  unfold ApiModel.define in D. destruct (ApiModel.r_spec (snd nr)) as [s| | |]; try discriminate. destruct (ApiModel.resolve_location _ _ _); try discriminate. injection D as <-. reflexivity.
Qed.
Lemma selected_there sel b t nr : In nr (ApiModel.select_resources sel b t) -> In nr (ApiModel.b_resources b).
Proof. unfold ApiModel.select_resources. destruct sel as [l|]; [|intros []]. intros H. apply in_flat_map in H. destruct H as (kv & _ & H). now apply filter_In in H. Qed.
Lemma served_marked b name health app c : ApiModel.setup b name health = Ok app -> ApiModel.app_api app = Some c ->
  (forall h, In h (http_handlers c) -> exists r, In (ApiModel.h_handler h, r) (ApiModel.b_resources b) /\ has_annotation r (chars "celerity.handler.http") (ApiModel.SBool true)) /\
  (forall h, In h (ws_handlers c) -> exists r, In (ApiModel.h_handler h, r) (ApiModel.b_resources b) /\ has_annotation r (chars "celerity.handler.websocket") (ApiModel.SBool true)).
Proof.
  intros H Ha. unfold ApiModel.setup in H. destruct (ApiModel.collect_api_config b name) as [c'|[|]|] eqn:C; try discriminate; [|injection H as <-; discriminate Ha].
  destruct (ApiModel.setup_server c' health) as [sv| |]; try discriminate. injection H as <-. cbn in Ha. injection Ha as ->.
  unfold ApiModel.collect_api_config in C. destruct (ApiModel.get_api b name) as [api|]; [|discriminate].
  unfold ApiModel.collect_http, ApiModel.collect_ws in C. destruct (ApiModel.collect b ApiModel.a_http _ _ _) as [[hs seen]| |] eqn:E1; try discriminate.
  destruct (ApiModel.collect b ApiModel.a_ws _ _ _) as [[ws seen']| |] eqn:E2; try discriminate. injection C as <-.
  assert (A : forall a at_ s l s' h, ApiModel.collect b a at_ (ApiModel.select_resources (ApiModel.r_selector api) b ApiModel.THandler) s = Ok (l, s') -> In h l ->
    exists r, In (ApiModel.h_handler h, r) (ApiModel.b_resources b) /\ has_annotation r a (ApiModel.SBool true)).
  { intros a at_ s l s' h E Hh. destruct (collected_from _ _ _ _ _ _ _ E h Hh) as ([n r] & m & Hi & Hm & ->). exists r. split; [now apply selected_there in Hi|].
    unfold ApiModel.annotated in Hm. cbn in Hm. destruct (ApiModel.r_annotations r) as [m'|] eqn:Er; [|discriminate]. destruct (ApiModel.find_key a m') as [[| |[|]]|] eqn:Ef; try discriminate. exists m'. split; [exact Er|]. now apply ApiProofs.find_key_in. }
  split; intros h Hh.
  - unfold http_handlers in Hh. cbn in Hh. destruct hs; cbn in Hh; [destruct Hh|]. exact (A _ _ _ _ _ _ E1 Hh).
  - unfold ws_handlers in Hh. cbn in Hh. destruct ws; cbn in Hh; [destruct Hh|]. exact (A _ _ _ _ _ _ E2 Hh).
Qed.

Section Params.
Variable F : Type.
Variable parse_f64 : text -> option F.
Variable k : classes.
Hypothesis Hk : sane k.
Variable json_text : text -> option text.
Variable of_int : Z -> F.
Variable env : text -> option text.
Variable show_i : Z -> text.
Variable show_f : F -> text.
Notation load := (load F parse_f64 k env).
Notation load_json := (load_json F parse_f64 k json_text of_int env).
Notation started := (started F show_i show_f).

(** A portable document that both readers load sets up the same application in both formats: the
    same outcomes, whatever the order in which the maps are iterated.  Its transform may be anything,
    its resources of any type, and its metadata may be left out or be without a shared handler
    config. *)
Theorem C149_same : forall m b b', portable json_text (YMap m) -> (forall v, In (Some (chars "metadata"), v) m -> not_array v) ->
  load_json (YMap m) = Ok b -> load [YMap m] = Ok b' ->
  forall asked health res, started b asked health res <-> started b' asked health res.
Proof.
  intros m b b' P NM Hj Hy asked health res. pose proof (same_essential F parse_f64 k Hk json_text of_int env show_i show_f m b b' P NM Hj Hy) as E.
  split; intros S; eapply started_essential; try exact S; [exact E|now symmetry].
Qed.
(** In JSON, a handler whose mark is written as a text is never served, references included: YAML
    replaces those. *)
Theorem C149_text_refuted : forall m b asked health app c n d t, one_each (YMap m) -> load_json (YMap m) = Ok b -> started b asked health (Ok app) -> ApiModel.app_api app = Some c ->
  declares m (chars "celerity/handler") n d -> json_text t = None ->
  (metadata_entry d (chars "annotations") (chars "celerity.handler.http") (YStr t) -> ~ In n (map ApiModel.h_handler (http_handlers c))) /\
  (metadata_entry d (chars "annotations") (chars "celerity.handler.websocket") (YStr t) -> ~ In n (map ApiModel.h_handler (ws_handlers c))).
Proof.
  intros m b asked health app c n d t Hm Hj Hs Ha (rs & Hrs & Hd & _) Jt.
  assert (Q : forall a r, metadata_entry d (chars "annotations") a (YStr t) -> In (n, r) (ApiModel.b_resources (view F show_i show_f b)) -> ~ has_annotation r a (ApiModel.SBool true)).
  { intros a r (mm & pm & H1 & H2 & H3) Hr (an & Ea & Han). apply (C127_exact F parse_f64 k Hk) in Hj.
    destruct Hj as (_ & _ & _ & _ & _ & _ & _ & (rs' & ds & Hrs' & Jd & Js) & _ & _).
    pose proof (keys_once _ _ _ _ (one_each_keys _ Hm) Hrs Hrs') as X. injection X as <-. pose proof (one_each_map _ _ _ Hm Hrs) as Or. pose proof (one_each_map _ _ _ Or Hd) as Od. pose proof (one_each_map _ _ _ Od H1) as Omm. pose proof (one_each_map _ _ _ Omm H2) as Opm.
    unfold SetupModel.view in Hr. cbn in Hr. apply in_map_iff in Hr. destruct Hr as ([n' lr] & E & Hl). injection E as -> <-.
    cbn in Ea. destruct (rme_annotations F (rr_meta _ _ _ lr)) as [l|] eqn:El; [|discriminate]. cbn in Ea. injection Ea as <-. apply in_map_iff in Han. destruct Han as ([a' s] & E & Hs'). injection E as -> Es.
    assert (s = SBool F true) as -> by (destruct s; cbn in Es; congruence).
    assert (Sub : forall ds l, resources_stand F parse_f64 env ds l -> In (n, lr) l -> exists r, In (n, r) ds /\ metadata_stands F parse_f64 env (r_meta _ _ _ r) (rr_meta _ _ _ lr)).
    { clear. intros ds l H. induction H as [|name r me l rs Hn Hme H IH|name r s me sp l rs Hn Hme Hsp H IH]; [intros []| |].
      - intros Hi. destruct (IH Hi) as (r' & Hr & Hx). exists r'. split; [now right|exact Hx].
      - intros [E|Hi]; [injection E as -> <-; exists r; split; [now left|exact Hme]|]. destruct (IH Hi) as (r' & Hr & Hx). exists r'. split; [now right|exact Hx]. }
    destruct (Sub _ _ Js Hl) as (r & Hr & Hme). apply last_sub in Hr.
    assert (Dec : forall rs ds, resources_declare F parse_f64 k json_text rs ds -> In (n, r) ds -> exists d', In (Some n, YMap d') rs /\ resource_declares F parse_f64 k json_text d' r).
    { clear. intros rs ds H. induction H as [|name rs ds H IH|name d rs ds Hi H IH|name d r' rs ds Hd H IH]; [intros []| | |].
      - intros Hi. destruct (IH Hi) as (d' & Hd & Hx). exists d'. split; [now right|exact Hx].
      - intros Hin. destruct (IH Hin) as (d' & Hd & Hx). exists d'. split; [now right|exact Hx].
      - intros [E|Hi]; [injection E as -> ->; exists d; split; [now left|exact Hd]|]. destruct (IH Hi) as (d' & Hd' & Hx). exists d'. split; [now right|exact Hx]. }
    destruct (Dec _ _ Jd Hr) as (d' & Hd' & (_ & _ & (_ & J2) & _)). pose proof (keys_once _ _ _ _ (one_each_keys _ Or) Hd Hd') as X. injection X as <-.
    destruct J2 as [(pre & v & post & x & E & _ & Hx & Eo)|(Hn & _)]; [|elim Hn; apply keys_in; eauto].
    assert (Hv : In (Some (chars "metadata"), v) d) by (rewrite E; apply in_elt). rewrite (keys_once _ _ _ _ (one_each_keys _ Od) Hv H1) in Hx.
    destruct Hme as [(x' & Ex & Hme)|(Ex & _)]; rewrite Eo in Ex; [|discriminate]. injection Ex as <-.
    destruct Hx as (_ & _ & Hann & _). destruct Hann as [(w & ns & Hw & _ & (am & all & -> & Hall & ->) & Exa)|(Hno & _)]; [|specialize (Hno (YMap pm)); discriminate Hno; now apply has_map].
    apply has_map in Hw. pose proof (keys_once _ _ _ _ (one_each_keys _ Omm) Hw H2) as X. injection X as ->.
    destruct Hme as (_ & Hb & _). rewrite Exa, El in Hb. inversion Hb as [|? ? Hb' E1 E2]; subst.
    destruct (SetupProofs.forall2_back (scalar_is F parse_f64 env) _ _ a (SBool F true) Hb' Hs') as (nd & Hnd & Hsc). apply last_sub in Hnd.
    assert (V : forall pm all, Forall2 (fun (a : option text * yaml) (b : text * node F) => fst a = Some (fst b) /\ is_value F parse_f64 k json_text (snd a) (snd b)) pm all -> In (a, nd) all -> exists v, In (Some a, v) pm /\ is_value F parse_f64 k json_text v nd).
    { clear. intros pm all H. induction H as [|[x v] [y w] l l' [E Hv] H IH]; [intros []|]. cbn in E, Hv. subst x. intros [E|Hi]; [injection E as -> ->; exists v; split; [now left|exact Hv]|].
      destruct (IH Hi) as (v' & Hv' & Hx). exists v'. split; [now right|exact Hx]. }
    destruct (V _ _ Hall Hnd) as (v' & Hv' & Hval). rewrite (keys_once _ _ _ _ (one_each_keys _ Opm) Hv' H3) in Hval. inversion Hval as [| | |? ? Htn| |]; subst.
    inversion Htn as [? Hpl|? u ps Hju]; subst; [|congruence]. destruct Hsc as [[=]|(ps & [=] & _)]. }
  assert (K : forall a, metadata_entry d (chars "annotations") a (YStr t) -> forall b' r', same_blueprint (view F show_i show_f b) b' -> In (n, r') (ApiModel.b_resources b') -> ~ has_annotation r' a (ApiModel.SBool true)).
  { intros a He b' r' S Hi (an & Ea & Hin). destruct (ApiProofs.same_in_back _ _ _ _ S Hi) as (r & Hr & Sr). apply (Q a r He Hr). destruct Sr as (_ & _ & _ & Sa & _). unfold same_map in Sa. rewrite Ea in Sa.
    destruct (ApiModel.r_annotations r) as [y|] eqn:Ey; [|destruct Sa]. exists y. split; [exact Ey|]. eapply Permutation_in; [apply Permutation_sym; exact Sa|exact Hin]. }
  inversion Hs as [b' S E]. destruct (served_marked b' asked health app c E Ha) as [Sh Sw].
  split; intros He Hin; apply in_map_iff in Hin; destruct Hin as (h & Eh & Hh); [destruct (Sh h Hh) as (r & Hr & An)|destruct (Sw h Hh) as (r & Hr & An)]; rewrite Eh in Hr; exact (K _ He b' r S Hr An).
Qed.
End Params.

(** The same document in both formats: [shop], with a transform, a bucket and a queue *)
Definition mixed (on : yaml) : list (option text * yaml) :=
  [(K "version", T "2025-05-12"); (K "transform", YSeq [T "celerity-2026-02-27-draft"]);
   (K "resources", YMap [
      (K "shop", YMap [(K "type", T "celerity/api"); (K "linkSelector", YMap [(K "byLabel", YMap [(K "app", T "shop")])]);
                       (K "spec", YMap [(K "protocols", YSeq [T "http"])])]);
      (K "list", YMap [(K "type", T "celerity/handler");
                       (K "metadata", YMap [(K "displayName", T "List"); (K "labels", YMap [(K "app", T "shop")]);
                                            (K "annotations", YMap [(K "celerity.handler.http", YBool true); (K "celerity.handler.http.path", T "/orders/{id}")])]);
                       (K "spec", YMap [(K "handler", T "list"); (K "codeLocation", T "./list-${variables.on}"); (K "timeout", YInt 30)])]);
      (K "add", YMap [(K "type", T "celerity/handler");
                      (K "metadata", YMap [(K "displayName", T "Add"); (K "labels", YMap [(K "app", T "shop")]); (K "annotations", YMap [(K "celerity.handler.http", on)])]);
                      (K "spec", YMap [(K "handler", T "add"); (K "codeLocation", T "./add")])]);
      (K "files", YMap [(K "type", T "celerity/bucket"); (K "spec", YMap [(K "name", T "files")])])]);
   (K "metadata", YMap [])].
Notation setup_of := (fun b => ApiModel.setup (SetupModel.view Z number_text number_text b) (Some (chars "shop")) false).
Notation json_of := (LoadJsonModel.load_json Z tenths ascii_classes no_json (fun z => z) switched_on).
Definition served (o : outcome ApiModel.cerr ApiModel.application) : option (list (text * text)) :=
  match o with Ok app => option_map (fun c => map (fun h => (ApiModel.h_handler h, snd (ApiModel.h_at h))) (http_handlers c)) (ApiModel.app_api app) | _ => None end.
Theorem C149_reference_refuted : exists m b b', one_each (YMap m) /\ json_of (YMap m) = Ok b /\ LoadModel.load Z tenths ascii_classes switched_on [YMap m] = Ok b' /\
  served (setup_of b) = Some [(chars "list", chars "/orders/:id")] /\ served (setup_of b') = Some [(chars "list", chars "/orders/:id"); (chars "add", chars "/")].
Proof.
  exists (mixed (T "${variables.on}")). eexists. eexists. split; [apply once_sound; vm_compute; reflexivity|]. split; [vm_compute; reflexivity|]. split; [vm_compute; reflexivity|]. split; vm_compute; reflexivity.
Qed.
Example C149_nonvacuous :
  portable no_json (YMap (mixed (YBool true))) /\ (forall v, In (Some (chars "metadata"), v) (mixed (YBool true)) -> not_array v) /\
  (exists b b', json_of (YMap (mixed (YBool true))) = Ok b /\ LoadModel.load Z tenths ascii_classes switched_on [YMap (mixed (YBool true))] = Ok b' /\
     served (setup_of b) = Some [(chars "list", chars "/orders/:id"); (chars "add", chars "/")] /\ length (rb_res _ _ _ _ _ b) = 4 /\ length (rb_res _ _ _ _ _ b') = 3) /\
  (exists d, declares (mixed (T "true")) (chars "celerity/handler") (chars "add") d /\ metadata_entry d (chars "annotations") (chars "celerity.handler.http") (YStr (chars "true"))).
Proof.
  split; [apply portable_sound; vm_compute; reflexivity|]. split; [|split].
  - intros v Hv l ->. cbn in Hv. repeat (destruct Hv as [Hv|Hv]; [discriminate Hv|]). exact Hv.
  - eexists. eexists. split; [vm_compute; reflexivity|]. split; [vm_compute; reflexivity|]. split; [vm_compute; reflexivity|]. split; reflexivity.
  - eexists. split; [eexists; split; [right; right; left; reflexivity|]; split; [right; right; left; reflexivity|now left]|].
    eexists. eexists. split; [right; left; reflexivity|]. split; [right; right; left; reflexivity|now left].
Qed.

Print Assumptions C149_same.
Print Assumptions C149_text_refuted.
Print Assumptions C149_reference_refuted.
