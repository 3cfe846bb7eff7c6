(** Proofs for [SetupProps]: what the view of a loaded blueprint shows, in terms of the document. *)
From Coq Require Import Permutation.
From Verif Require Import Base Chars SubstModel ResolveModel ResolveSpec BlueprintModel WfYamlModel WfYamlSpec WfYamlProofs SpecYamlModel SpecYamlSpec
  WfResolveModel WfResolveSpec WfResolveProofs SpecResolveModel SpecResolveSpec LoadModel LoadSpec LoadProofs.
From Verif Require ApiModel ApiProofs.
From Verif Require Import ApiSpec SetupModel SetupSpec.
Local Open Scope list_scope.

Lemma entries_in m key v : In (key, v) (entries_of m) <-> In (Some key, v) m.
Proof.
  unfold entries_of. rewrite in_flat_map. split.
  - intros ([[key'|] w] & Hi & Hk); cbn in Hk; [|destruct Hk]. destruct Hk as [[= -> ->]|[]]. exact Hi.
  - intros Hi. exists (Some key, v). split; [exact Hi|now left].
Qed.
Lemma entries_keys m : map fst (entries_of m) = keys_of m.
Proof. unfold entries_of, keys_of. induction m as [|[[key|] v] m IH]; cbn; [reflexivity|now rewrite IH|exact IH]. Qed.
Lemma texts_in m key t : In (key, t) (named_texts m) <-> In (Some key, YStr t) m.
Proof.
  unfold named_texts. rewrite in_flat_map. split.
  - intros ([[key'|] w] & Hi & Hk); [|destruct Hk]. destruct w; try destruct Hk as [[= -> ->]|[]]; try destruct Hk. exact Hi.
  - intros Hi. exists (Some key, YStr t). split; [exact Hi|now left].
Qed.
Lemma texts_once m : NoDup (keys_of m) -> NoDup (map fst (named_texts m)).
Proof.
  induction m as [|[[key|] v] m IH]; intros H; [constructor| |exact (IH H)]. unfold keys_of in H. cbn in H. apply NoDup_cons_iff in H. destruct H as [H1 H2].
  destruct v; try exact (IH H2). unfold named_texts. cbn. constructor; [|exact (IH H2)]. intros Hi. apply H1. apply in_map_iff in Hi. destruct Hi as ([key' t'] & E & Hi). cbn in E. subst key'.
  apply keys_in. exists (YStr t'). now apply texts_in.
Qed.
Lemma maps_in m key d : In (key, d) (named_maps m) <-> In (Some key, YMap d) m.
Proof.
  unfold named_maps. rewrite in_flat_map. split.
  - intros ([[key'|] w] & Hi & Hk); [|destruct Hk]. destruct w; try destruct Hk as [[= -> ->]|[]]; try destruct Hk. exact Hi.
  - intros Hi. exists (Some key, YMap d). split; [exact Hi|now left].
Qed.
Lemma maps_once m : NoDup (keys_of m) -> NoDup (map fst (named_maps m)).
Proof.
  induction m as [|[[key|] v] m IH]; intros H; [constructor| |exact (IH H)]. unfold keys_of in H. cbn in H. apply NoDup_cons_iff in H. destruct H as [H1 H2].
  destruct v; try exact (IH H2). unfold named_maps. cbn. constructor; [|exact (IH H2)]. intros Hi. apply H1. apply in_map_iff in Hi. destruct Hi as ([key' t'] & E & Hi). cbn in E. subst key'.
  apply keys_in. exists (YMap t'). now apply maps_in.
Qed.
Lemma forall2_fst {A B} (R : A -> B -> Prop) l r : Forall2 (fun a b => fst a = fst b /\ R (snd a) (snd b)) l r -> map (@fst text A) l = map (@fst text B) r.
Proof. induction 1 as [|a b l r [E _] _ IH]; cbn; congruence. Qed.
Lemma forall2_there {A B} (R : A -> B -> Prop) l r key a : Forall2 (fun a b => fst a = fst b /\ R (snd a) (snd b)) l r -> In (key, a) l -> exists b : B, In (key : text, b) r /\ R a b.
Proof.
  induction 1 as [|[k1 x] [k2 y] l r [E H] F IH]; [intros []|]. cbn in E, H. subst k2. intros [[= -> ->]|Hi]; [exists y; split; [now left|exact H]|]. destruct (IH Hi) as (b & Hb & Hr). exists b. split; [now right|exact Hr].
Qed.
Lemma forall2_back {A B} (R : A -> B -> Prop) l r key b : Forall2 (fun a b => fst a = fst b /\ R (snd a) (snd b)) l r -> In (key, b) r -> exists a : A, In (key : text, a) l /\ R a b.
Proof.
  induction 1 as [|[k1 x] [k2 y] l r [E H] F IH]; [intros []|]. cbn in E, H. subst k2. intros [[= -> ->]|Hi]; [exists x; split; [now left|exact H]|]. destruct (IH Hi) as (a & Ha & Hr). exists a. split; [now right|exact Hr].
Qed.
Lemma view_entry_in {A B} (f : A -> B) (l : list (text * A)) key b : In (key, b) (map (view_entry f) l) <-> exists a, In (key, a) l /\ b = f a.
Proof.
  rewrite in_map_iff. split.
  - intros ([key' a] & E & Hi). injection E as <- <-. exists a. split; [exact Hi|reflexivity].
  - intros (a & Hi & ->). exists (key, a). split; [reflexivity|exact Hi].
Qed.
Lemma view_entry_keys {A B} (f : A -> B) (l : list (text * A)) : map fst (map (view_entry f) l) = map fst l.
Proof. rewrite map_map. reflexivity. Qed.

Section Params.
Variable F : Type.
Variable parse_f64 : text -> option F.
Variable k : classes.
Variable env : text -> option text.
Variable show_i : Z -> text.
Variable show_f : F -> text.
Notation mapping := (list (option text * yaml)).
Notation view := (view F show_i show_f).
Notation view_scalar := (view_scalar F show_i show_f).
Notation annotated := (annotated F parse_f64 k env).
Notation text_of := (text_of k env).
Notation int_of := (int_of F parse_f64 k env).
Notation bool_of := (bool_of F parse_f64 k env).

Lemma scalar_of_once v s s' : scalar_of F parse_f64 k env v s -> scalar_of F parse_f64 k env v s' -> s = s'.
Proof.
  intros (n & Hn & Hs) (n' & Hn' & Hs'). apply node_ok in Hn, Hn'. assert (n' = n) as -> by congruence. destruct Hs as [->|(ps & -> & P)], Hs' as [E|(ps' & E & P')]; try discriminate; injection E as <-; [reflexivity|]. eapply scalar_unique; eassumption.
Qed.
Lemma view_true s : view_scalar s = ApiModel.SBool true <-> s = SBool F true.
Proof. destruct s; cbn; split; intros [= ?]; subst; reflexivity. Qed.
Lemma view_written s t : ApiSpec.shown (view_scalar s) t -> t = written F show_i show_f s.
Proof. destruct s as [| | |[|]]; cbn; intros H; now inversion H. Qed.

Lemma metadata_once d part key v v' : one_each (YMap d) -> metadata_entry d part key v -> metadata_entry d part key v' -> v = v'.
Proof.
  intros Hd (mm & pm & H1 & H2 & H3) (mm' & pm' & H1' & H2' & H3').
  assert (E := keys_once _ _ _ _ (one_each_keys d Hd) H1 H1'). injection E as <-. assert (Hmm := one_each_map _ _ _ Hd H1).
  assert (E := keys_once _ _ _ _ (one_each_keys mm Hmm) H2 H2'). injection E as <-. assert (Hpm := one_each_map _ _ _ Hmm H2).
  exact (keys_once _ _ _ _ (one_each_keys pm Hpm) H3 H3').
Qed.
Lemma spec_field_lacks {A} d key (R : yaml -> A -> Prop) sm o : one_each (YMap d) -> In (Some (chars "spec"), YMap sm) d -> lacks sm key -> spec_field d key R o -> o = None.
Proof.
  intros Hd Hs Hl (sm' & Hs' & Ho). assert (E := keys_once _ _ _ _ (one_each_keys d Hd) Hs Hs'). injection E as <-. destruct Ho as [(v & a & Hi & _)|[_ ->]]; [|reflexivity]. elim Hl. apply keys_in. eauto.
Qed.

(** What a resource shows of its declaration *)
Definition source_reads (d : mapping) (s : ApiModel.source) : Prop :=
  spec_field d (chars "codeLocation") text_of (ApiModel.so_location s) /\
  spec_field d (chars "timeout") int_of (ApiModel.so_timeout s) /\
  spec_field d (chars "tracingEnabled") bool_of (ApiModel.so_tracing s).
Definition key_text (v : yaml) (t : text) : Prop := exists ps, is_text k v ps /\ parts_scalar F parse_f64 env ps (SStr F t).
Definition protocol_reads (v : yaml) (p : ApiModel.protocol) : Prop :=
  ((forall pm, v <> YMap pm) /\ forall o, p <> ApiModel.PWebSocketConfig o) \/
  exists pm w o, v = YMap pm /\ In (Some (chars "websocketConfig"), YMap w) pm /\ optional w (chars "routeKey") key_text o /\ p = ApiModel.PWebSocketConfig o.
Definition protocols_read (d : mapping) (ps : list ApiModel.protocol) : Prop :=
  exists sm l, In (Some (chars "spec"), YMap sm) d /\ In (Some (chars "protocols"), YSeq l) sm /\ Forall2 protocol_reads l ps.
Record reads (d : mapping) (r : ApiModel.resource) : Prop := {
  rd_type : exists t ty, In (Some (chars "type"), YStr t) d /\ In (t, ty) type_names /\ ApiModel.r_type r = view_type ty;
  rd_label : forall key, (exists v, has_label r key v) <-> exists v, metadata_entry d (chars "labels") key v;
  rd_annotation : forall a s', has_annotation r a s' <-> exists s, annotated d a s /\ s' = view_scalar s;
  rd_annotated : forall a v, metadata_entry d (chars "annotations") a v -> exists s', has_annotation r a s';
  rd_selector : forall key, (exists v, In (key, v) (selector r)) <->
    exists lm bm t, In (Some (chars "linkSelector"), YMap lm) d /\ In (Some (chars "byLabel"), YMap bm) lm /\ In (Some key, YStr t) bm;
  rd_handler : ApiModel.r_type r = ApiModel.THandler -> exists s, ApiModel.r_spec r = ApiModel.SpHandler s /\ source_reads d s;
  rd_config : ApiModel.r_type r = ApiModel.THandlerConfig -> exists s, ApiModel.r_spec r = ApiModel.SpHandlerConfig s /\ source_reads d s;
  rd_api : ApiModel.r_type r = ApiModel.TApi -> exists ps t, ApiModel.r_spec r = ApiModel.SpApi ps t /\ spec_field d (chars "tracingEnabled") bool_of t /\ protocols_read d ps
}.

Lemma optional_both {A B} m key (R : yaml -> A -> Prop) (S : A -> B -> Prop) (T : yaml -> B -> Prop) (o : option A) (o' : option B) :
  (forall v a b, R v a -> S a b -> T v b) -> optional m key R o -> both S o o' -> optional m key T o'.
Proof.
  intros H [(v & a & Hi & Hr & ->)|[Hl ->]] Hb; inversion Hb; subst.
  - left. eexists v, _. split; [exact Hi|]. split; [eapply H; eassumption|reflexivity].
  - right. now split.
Qed.

Lemma shared_reads m x r : is_shared F k m x -> shared_is F parse_f64 env x r ->
  optional m (chars "codeLocation") text_of (rhc_location r) /\ optional m (chars "timeout") int_of (rhc_timeout r) /\ optional m (chars "tracingEnabled") bool_of (rhc_tracing r).
Proof.
  intros (I1 & _ & _ & I4 & I5 & _) (H1 & _ & _ & H4 & H5 & _). split; [|split]; (eapply optional_both; [|eassumption|eassumption]); intros v a b Ha Hb; exists a; split; assumption.
Qed.
Lemma handler_reads m x r : is_handler F k m x -> handler_is F parse_f64 env x r ->
  optional m (chars "codeLocation") text_of (rha_location r) /\ optional m (chars "timeout") int_of (rha_timeout r) /\ optional m (chars "tracingEnabled") bool_of (rha_tracing r).
Proof.
  intros (_ & I1 & _ & _ & _ & I4 & I5 & _) (_ & H1 & _ & _ & _ & H4 & H5 & _). split; [|split]; (eapply optional_both; [|eassumption|eassumption]); intros v a b Ha Hb; exists a; split; assumption.
Qed.

Lemma holds_in {A} (m : list (text * A)) key v : holds m key v -> In (key, v) m.
Proof. intros (pre & post & -> & _). rewrite in_app_iff. right. now left. Qed.
Lemma not_holds {A} (m : list (text * A)) key v : ~ In key (map fst m) -> ~ In (key, v) m.
Proof. intros H Hi. apply H. apply in_map_iff. now exists (key, v). Qed.
Lemma routed w r o : is_websocket F k w (NMap F r) -> field_is r (chars "routeKey") (fun v t => scalar_is F parse_f64 env v (SStr F t)) o -> optional w (chars "routeKey") key_text o.
Proof.
  intros (r' & [= <-] & H) Hf.
  assert (There : forall v, In (Some (chars "routeKey"), v) w -> In (chars "routeKey", v) (filter (fun e => text_eqb (fst e) (chars "routeKey") || text_eqb (fst e) (chars "authStrategy")) (entries_of w))).
  { intros v Hv. apply filter_In. split; [now apply entries_in|reflexivity]. }
  pose proof (fun key a => forall2_there (fun v n => exists ps, is_text k v ps /\ n = NSub F ps) _ _ key a H) as FT. pose proof (fun key b => forall2_back (fun v n => exists ps, is_text k v ps /\ n = NSub F ps) _ _ key b H) as FB.
  destruct Hf as [(n & t & Hn & Ht & ->)|[Hl ->]].
  - apply holds_in in Hn. destruct (FB _ _ Hn) as (v & Hv & ps & Hps & ->). left. exists v, t. split; [apply filter_In in Hv; apply entries_in, Hv|]. split; [|reflexivity]. exists ps. split; [exact Hps|].
    destruct Ht as [E|(ps' & E & P)]; [discriminate|]. now injection E as <-.
  - right. split; [|reflexivity]. intros Hi. apply keys_in in Hi. destruct Hi as [v Hv]. destruct (FT _ _ (There v Hv)) as (n & Hn & _). exact (not_holds _ _ _ Hl Hn).
Qed.
Lemma protocol_read v n p : is_protocol F k v n -> protocol_is F parse_f64 env n p -> protocol_reads v (view_protocol p).
Proof.
  intros [(t & -> & Ht & ->)|(m & w & -> & (v' & Hw & w0 & -> & Hws) & ->)] Hp.
  - left. split; [discriminate|]. destruct Hp as [(t' & Ht' & Hin)|(m & w & key & how & E & _)]; [|discriminate]. intros o E. destruct p; try discriminate. cbn in Hin. destruct Hin as [[=]|[[=]|[]]].
  - right. pose proof Hws as (r & Er & _). subst w. destruct Hp as [(t' & Ht' & Hin)|(m' & w' & key & how & [= <-] & Hh & Hkey & _ & ->)].
    + destruct Ht' as [[=]|(ps & [=] & _)].
    + exists m, w0, key. split; [reflexivity|]. split; [exact Hw|]. split; [|reflexivity]. apply holds_in in Hh. destruct Hh as [[= ->]|[]]. eapply routed; eassumption.
Qed.

Lemma spec_reads ty d sm s r : In (Some (chars "spec"), YMap sm) d -> is_spec F parse_f64 k ty sm s -> spec_is F parse_f64 env s r ->
  (view_type ty = ApiModel.THandler -> exists x, view_spec F r = ApiModel.SpHandler x /\ source_reads d x) /\
  (view_type ty = ApiModel.THandlerConfig -> exists x, view_spec F r = ApiModel.SpHandlerConfig x /\ source_reads d x) /\
  (view_type ty = ApiModel.TApi -> exists ps t, view_spec F r = ApiModel.SpApi ps t /\ spec_field d (chars "tracingEnabled") bool_of t /\ protocols_read d ps).
Proof.
  intros Hd Hs Hr. split; [|split]; intros E; destruct ty; try discriminate E; destruct Hs as (x & Hx & ->); inversion Hr; subst.
  - destruct (handler_reads _ _ _ Hx H0) as (H1 & H2 & H3). eexists. split; [reflexivity|]. split; [|split]; exists sm; split; assumption.
  - destruct (shared_reads _ _ _ Hx H0) as (H1 & H2 & H3). eexists. split; [reflexivity|]. split; [|split]; exists sm; split; assumption.
  - destruct Hx as (I1 & _ & _ & _ & I5 & Ne). destruct H0 as (H1 & _ & _ & _ & H5). eexists _, _. split; [reflexivity|]. split.
    + exists sm. split; [exact Hd|]. eapply optional_both; [|exact I5|exact H5]. intros v a b Ha Hb. exists a. now split.
    + destruct I1 as [(v & Hv & l & -> & Hl)|[_ E']]; [|now elim Ne]. exists sm, l. split; [exact Hd|]. split; [exact Hv|]. clear - Hl H1. revert H1. generalize (rap_protocols r0).
      induction Hl as [|y n l ns Hy Hl IH]; intros ps Hp; inversion Hp; subst; cbn; constructor; [eapply protocol_read; eassumption|now apply IH].
Qed.

Lemma metadata_reads d r : one_each (YMap d) -> defaults d (chars "metadata") (is_mapping (metadata_loads F parse_f64 k env)) (no_metadata F) r ->
  (forall key, (exists ls, rme_labels F r = Some ls /\ exists v, In (key, v) ls) <-> exists v, metadata_entry d (chars "labels") key v) /\
  (forall a s, (exists l, rme_annotations F r = Some l /\ In (a, s) l) <-> annotated d a s) /\
  (forall a v, metadata_entry d (chars "annotations") a v -> exists s, annotated d a s) /\
  (forall ls, rme_labels F r = Some ls -> NoDup (map fst ls)) /\ (forall l, rme_annotations F r = Some l -> NoDup (map fst l)).
Proof.
  intros Hd [(v & Hv & mm & -> & x & (_ & Ia & Il & _) & (_ & Ha & El))|[Hl ->]].
  - pose proof (one_each_keys d Hd) as Kd. pose proof (one_each_map _ _ _ Hd Hv) as Om. pose proof (one_each_keys mm Om) as Km.
    assert (M : forall part key v, metadata_entry d part key v <-> exists pm, In (Some part, YMap pm) mm /\ In (Some key, v) pm).
    { intros part key v. split.
      - intros (mm' & pm & H1 & H2 & H3). assert (E := keys_once _ _ _ _ Kd Hv H1). injection E as <-. eauto.
      - intros (pm & H2 & H3). exists mm, pm. auto. }
    rewrite El.
    assert (L : (forall key, (exists ls, me_labels F x = Some ls /\ exists v, In (key, v) ls) <-> exists v, metadata_entry d (chars "labels") key v) /\ (forall ls, me_labels F x = Some ls -> NoDup (map fst ls))).
    { destruct Il as [(v & ls & Hi & _ & (lm & -> & Hls) & Ex)|[Hn Ex]]; rewrite Ex.
      - pose proof (fun key a => forall2_there (fun (v : yaml) (t : text) => v = YStr t) _ _ key a Hls) as FT. pose proof (fun key b => forall2_back (fun (v : yaml) (t : text) => v = YStr t) _ _ key b Hls) as FB. split.
        + intros key. split.
          * intros (ls' & [= <-] & t & Ht). destruct (FB _ _ Ht) as (v & Hv' & _). exists v. apply M. exists lm. split; [exact Hi|now apply entries_in].
          * intros (v & Hv'). apply M in Hv'. destruct Hv' as (pm & H2 & H3). assert (E := keys_once _ _ _ _ Km Hi H2). injection E as <-. apply entries_in in H3. destruct (FT _ _ H3) as (t & Ht & _). exists ls. split; [reflexivity|eauto].
        + intros ls' [= <-]. pose proof (forall2_fst (fun (v : yaml) (t : text) => v = YStr t) _ _ Hls) as E. rewrite <- E, entries_keys. apply one_each_keys. eapply one_each_map; eassumption.
      - split; [|discriminate]. intros key. split; [intros (ls & [=] & _)|]. intros (v & Hv'). apply M in Hv'. destruct Hv' as (pm & H2 & _). elim (Hn _ H2). now exists pm. }
    split; [exact (proj1 L)|]. split; [|split; [|split; [exact (proj2 L)|]]].
    + intros a s. destruct Ia as [(v & ns & Hi & _ & (am & -> & Hns) & Ex)|[Hn Ex]]; rewrite Ex in Ha; inversion Ha as [E1 E2|ns' ss Hss E1 E2]; subst.
      * pose proof (fun key a => forall2_there (is_node F parse_f64 k) _ _ key a Hns) as FT. pose proof (fun key b => forall2_back (is_node F parse_f64 k) _ _ key b Hns) as FB.
        pose proof (fun key a => forall2_there (scalar_is F parse_f64 env) _ _ key a Hss) as GT. pose proof (fun key b => forall2_back (scalar_is F parse_f64 env) _ _ key b Hss) as GB. split.
        -- intros (l & [= <-] & Hs). destruct (GB _ _ Hs) as (n & Hn & Hsc). destruct (FB _ _ Hn) as (v & Hv' & Hnd). exists v. split; [apply M; exists am; split; [exact Hi|now apply entries_in]|]. exists n. now split.
        -- intros (v & Hv' & Hsc). apply M in Hv'. destruct Hv' as (pm & H2 & H3). assert (E := keys_once _ _ _ _ Km Hi H2). injection E as <-. apply entries_in in H3. destruct (FT _ _ H3) as (n & Hn & Hnd). destruct (GT _ _ Hn) as (s' & Hs' & Hsc').
           exists ss. split; [reflexivity|]. assert (s = s') as -> by (eapply scalar_of_once; [exact Hsc|exists n; split; assumption]). exact Hs'.
      * split; [intros (l & [=] & _)|]. intros (v & Hv' & _). apply M in Hv'. destruct Hv' as (pm & H2 & _). elim (Hn _ H2). now exists pm.
    + intros a v Hv'. destruct Ia as [(v' & ns & Hi & _ & (am & -> & Hns) & Ex)|[Hn Ex]]; rewrite Ex in Ha; inversion Ha as [E1 E2|ns' ss Hss E1 E2]; subst.
      * pose proof Hv' as Hv2. apply M in Hv'. destruct Hv' as (pm & H2 & H3). assert (E := keys_once _ _ _ _ Km Hi H2). injection E as <-. apply entries_in in H3.
        destruct (forall2_there (is_node F parse_f64 k) _ _ _ _ Hns H3) as (n & Hn & Hnd). destruct (forall2_there (scalar_is F parse_f64 env) _ _ _ _ Hss Hn) as (s & _ & Hsc). exists s, v. split; [exact Hv2|]. exists n. now split.
      * apply M in Hv'. destruct Hv' as (pm & H2 & _). elim (Hn _ H2). now exists pm.
    + intros l El'. destruct Ia as [(v' & ns & Hi & _ & (am & -> & Hns) & Ex)|[Hn Ex]]; rewrite Ex in Ha; inversion Ha as [E1 E2|ns' ss Hss E1 E2]; subst; [|congruence].
      assert (ss = l) as -> by congruence. pose proof (forall2_fst (is_node F parse_f64 k) _ _ Hns) as E3. pose proof (forall2_fst (scalar_is F parse_f64 env) _ _ Hss) as E4. rewrite <- E4, <- E3, entries_keys. apply one_each_keys. eapply one_each_map; eassumption.
  - assert (N : forall part key v, ~ metadata_entry d part key v) by (intros part key v (mm & pm & H1 & _); apply Hl; apply keys_in; eauto). cbn.
    split; [|split; [|split; [|split]]]; try (intros; discriminate).
    + intros key. split; [intros (ls & [=] & _)|]. intros (v & Hv). elim (N _ _ _ Hv).
    + intros a s. split; [intros (l & [=] & _)|]. intros (v & Hv & _). elim (N _ _ _ Hv).
    + intros a v Hv. elim (N _ _ _ Hv).
Qed.

Notation view_resource := (view_resource F show_i show_f).
Lemma resource_reads d lr : one_each (YMap d) -> resource_loads F parse_f64 k env d lr -> reads d (view_resource lr) /\ resource_ok (view_resource lr).
Proof.
  intros Hd ((t & Ht & Hty) & Hm & Hsel & _ & (v & Hsp & sm & -> & s & Hs & Hr)). destruct (metadata_reads d _ Hd Hm) as (M1 & M2 & M3 & M4 & M5). destruct (spec_reads _ _ _ _ _ Hsp Hs Hr) as (S1 & S2 & S3).
  assert (An : forall a s', has_annotation (view_resource lr) a s' <-> exists s0, annotated d a s0 /\ s' = view_scalar s0).
  { intros a s'. unfold has_annotation. cbn [ApiModel.r_annotations SetupModel.view_resource]. split.
    - intros (l & Hl & Hi). destruct (rme_annotations F (rr_meta _ _ _ lr)) as [l0|] eqn:El; [|discriminate]. injection Hl as <-. apply view_entry_in in Hi. destruct Hi as (s0 & Hi & ->). exists s0. split; [|reflexivity]. apply M2. eauto.
    - intros (s0 & H & ->). apply M2 in H. destruct H as (l0 & -> & Hi). eexists. split; [reflexivity|]. apply view_entry_in. eauto. }
  split; [constructor|].
  - exists t, (rr_type _ _ _ lr). auto.
  - intros key. rewrite <- M1. unfold has_label. cbn. split; [intros (v & ls & H & Hi); eauto|intros (ls & H & v & Hi); eauto].
  - exact An.
  - intros a v Hv. destruct (M3 a v Hv) as [s0 Hs0]. exists (view_scalar s0). apply An. eauto.
  - intros key. unfold selector. cbn. destruct Hsel as [(v & sel & Hi & (lm & -> & vb & Hb & bm & -> & ->) & Es)|[Hl Es]]; rewrite Es.
    + split.
      * intros (t' & Hi'). apply texts_in in Hi'. exists lm, bm, t'. auto.
      * intros (lm' & bm' & t' & H1 & H2 & H3). assert (E := keys_once _ _ _ _ (one_each_keys d Hd) Hi H1). injection E as <-. assert (E := keys_once _ _ _ _ (one_each_keys _ (one_each_map _ _ _ Hd Hi)) Hb H2). injection E as <-. exists t'. now apply texts_in.
    + split; [intros (? & [])|]. intros (lm & bm & t' & H1 & _). elim Hl. apply keys_in. eauto.
  - exact S1.
  - exact S2.
  - exact S3.
  - unfold resource_ok, map_ok. cbn. split; [exact M4|]. split.
    + intros m Hm'. destruct (rme_annotations F (rr_meta _ _ _ lr)) as [l0|] eqn:El; [|discriminate]. injection Hm' as <-. rewrite view_entry_keys. now apply M5.
    + unfold selector. cbn. destruct Hsel as [(v & sel & Hi & (lm & -> & vb & Hb & bm & -> & ->) & Es)|[Hl Es]]; rewrite Es; [|constructor]. apply texts_once, one_each_keys. exact (one_each_map _ _ _ (one_each_map _ _ _ Hd Hi) Hb).
Qed.
Lemma same_reads d r r' : same_resource r r' -> reads d r -> reads d r'.
Proof.
  intros S R. pose proof S as (E1 & E2 & _ & P2 & _). pose proof (ApiProofs.same_selector _ _ S) as Ps.
  assert (An : forall a s, has_annotation r a s <-> has_annotation r' a s).
  { intros a s. unfold has_annotation, same_map in *. destruct (ApiModel.r_annotations r) as [m|], (ApiModel.r_annotations r') as [m'|]; try (destruct P2; fail).
    - split; intros (x & [= <-] & Hi); eexists; (split; [reflexivity|]); [eapply Permutation_in; eassumption|eapply Permutation_in; [apply Permutation_sym; eassumption|eassumption]].
    - reflexivity. }
  destruct R as [R1 R2 R3 R4 R5 R6 R7 R8]. constructor; try (rewrite <- E1); try (rewrite <- E2); try assumption.
  - intros key. rewrite <- R2. split; intros [v Hv]; exists v; [eapply ApiProofs.same_label; eassumption|apply (proj1 (ApiProofs.same_label _ _ _ _ S) Hv)].
  - intros a s. rewrite <- An. apply R3.
  - intros a v Hv. destruct (R4 a v Hv) as [s Hs]. exists s. now apply An.
  - intros key. rewrite <- R5. split; intros [v Hv]; exists v; (eapply Permutation_in; [|exact Hv]); [now apply Permutation_sym|exact Ps].
Qed.

(** What a blueprint shows of the document *)
Record shows (m : mapping) (b : ApiModel.blueprint) : Prop := {
  sh_there : forall n r, In (n, r) (ApiModel.b_resources b) -> exists t d, declares m t n d /\ reads d r;
  sh_back : forall t n d, declares m t n d -> In t (map fst type_names) -> exists r, In (n, r) (ApiModel.b_resources b) /\ reads d r;
  sh_ok : blueprint_ok b;
  sh_shared : shared_field m (chars "codeLocation") text_of (ApiModel.bind_opt (ApiModel.b_shared b) ApiModel.so_location) /\
              shared_field m (chars "timeout") int_of (ApiModel.bind_opt (ApiModel.b_shared b) ApiModel.so_timeout) /\
              shared_field m (chars "tracingEnabled") bool_of (ApiModel.bind_opt (ApiModel.b_shared b) ApiModel.so_tracing)
}.
Lemma loads_in l rs : resources_load F parse_f64 k env l rs ->
  (forall n lr, In (n, lr) rs -> exists d, In (n, d) l /\ resource_loads F parse_f64 k env d lr) /\
  (forall n d, In (n, d) l -> (exists t, In (Some (chars "type"), YStr t) d /\ ~ In t (map fst type_names)) \/ exists lr, In (n, lr) rs /\ resource_loads F parse_f64 k env d lr) /\
  (NoDup (map fst l) -> NoDup (map fst rs)).
Proof.
  induction 1 as [|n d t l rs Ht Hu H (I1 & I2 & I3)|n d r l rs Hr H (I1 & I2 & I3)].
  - repeat split; [intros n lr []|intros n d []|constructor].
  - split; [|split].
    + intros n' lr Hi. destruct (I1 _ _ Hi) as (d' & Hd & Hl). exists d'. split; [now right|exact Hl].
    + intros n' d' [[= <- <-]|Hi]; [left; eauto|now apply I2].
    + intros Hn. cbn in Hn. apply NoDup_cons_iff in Hn. now apply I3.
  - split; [|split].
    + intros n' lr [[= <- <-]|Hi]; [exists d; split; [now left|exact Hr]|]. destruct (I1 _ _ Hi) as (d' & Hd & Hl). exists d'. split; [now right|exact Hl].
    + intros n' d' [[= <- <-]|Hi]; [right; exists r; split; [now left|exact Hr]|]. destruct (I2 _ _ Hi) as [Hl|(lr & Hi' & Hl)]; [now left|]. right. exists lr. split; [now right|exact Hl].
    + intros Hn. cbn in Hn |- *. apply NoDup_cons_iff in Hn. destruct Hn as [Hn Hn']. constructor; [|now apply I3]. intros Hi. apply Hn. apply in_map_iff in Hi. destruct Hi as ([n' lr] & E & Hi). cbn in E. subst n'. destruct (I1 _ _ Hi) as (d' & Hd & _). apply in_map_iff. now exists (n, d').
Qed.
Lemma document_shows m b : one_each (YMap m) -> document_loads F parse_f64 k env m b -> shows m (view b).
Proof.
  intros Hm (_ & _ & _ & _ & (rs & Hrs & Hl) & _ & Hsh). pose proof (one_each_keys m Hm) as Km. pose proof (one_each_map _ _ _ Hm Hrs) as Or. pose proof (one_each_keys rs Or) as Kr. destruct (loads_in _ _ Hl) as (L1 & L2 & L3).
  assert (Od : forall n d, In (Some n, YMap d) rs -> one_each (YMap d)) by (intros; eapply one_each_map; eassumption).
  constructor.
  - intros n r Hi. apply view_entry_in in Hi. destruct Hi as (lr & Hi & ->). destruct (L1 _ _ Hi) as (d & Hd & Hlo). apply maps_in in Hd. pose proof Hlo as ((t & Ht & _) & _). exists t, d. split; [exists rs; auto|]. apply resource_reads; eauto.
  - intros t n d (rs' & Hrs' & Hd & Ht) Hty. assert (E := keys_once _ _ _ _ Km Hrs Hrs'). injection E as <-. pose proof (proj2 (maps_in _ _ _) Hd) as Hd'. destruct (L2 _ _ Hd') as [(t' & Ht' & Hn)|(lr & Hi & Hlo)].
    + assert (E := keys_once _ _ _ _ (one_each_keys d (Od _ _ Hd)) Ht Ht'). injection E as <-. contradiction.
    + exists (view_resource lr). split; [apply view_entry_in; eauto|]. apply resource_reads; eauto.
  - split.
    + unfold map_ok. cbn. rewrite view_entry_keys. apply L3, maps_once, Kr.
    + intros n r Hi. apply view_entry_in in Hi. destruct Hi as (lr & Hi & ->). destruct (L1 _ _ Hi) as (d & Hd & Hlo). apply maps_in in Hd. apply (resource_reads d); eauto.
  - cbn. destruct Hsh as [(mm & w & r & H1 & H2 & (x & Hx & Hr) & ->)|(Hn & ->)]; cbn.
    + destruct (shared_reads _ _ _ Hx Hr) as (S1 & S2 & S3). split; [|split]; left; exists mm, w; auto.
    + split; [|split]; right; split; auto.
Qed.
Lemma shows_same m b b' : same_blueprint b b' -> shows m b -> shows m b'.
Proof.
  intros S [H1 H2 [K1 K2] H4]. pose proof S as (Es & l & P & Fa). constructor.
  - intros n r' Hi. destruct (ApiProofs.same_in_back _ _ _ _ S Hi) as (r & Hr & Sr). destruct (H1 _ _ Hr) as (t & d & Hd & R). exists t, d. split; [exact Hd|]. eapply same_reads; eassumption.
  - intros t n d Hd Ht. destruct (H2 _ _ _ Hd Ht) as (r & Hr & R). destruct (ApiProofs.same_in _ _ _ _ S Hr) as (r' & Hr' & Sr). exists r'. split; [exact Hr'|]. eapply same_reads; eassumption.
  - split.
    + unfold map_ok. assert (E : map fst l = map fst (ApiModel.b_resources b')) by (clear - Fa; induction Fa as [|x y l l' [E _] _ IH]; cbn; congruence). rewrite <- E. eapply Permutation_NoDup; [apply Permutation_map, P|exact K1].
    + intros n r' Hi. destruct (ApiProofs.same_in_back _ _ _ _ S Hi) as (r & Hr & Sr). specialize (K2 _ _ Hr). destruct K2 as (A1 & A2 & A3). pose proof (ApiProofs.same_selector _ _ Sr) as Ps. destruct Sr as (_ & _ & S1 & S2 & _). unfold same_map in S1, S2. split; [|split].
      * intros x Ex. rewrite Ex in S1. destruct (ApiModel.r_labels r) as [y|] eqn:Ey; [|destruct S1]. eapply ApiProofs.map_ok_perm; [exact S1|now apply A1].
      * intros x Ex. rewrite Ex in S2. destruct (ApiModel.r_annotations r) as [y|] eqn:Ey; [|destruct S2]. eapply ApiProofs.map_ok_perm; [exact S2|now apply A2].
      * eapply ApiProofs.map_ok_perm; eassumption.
  - now rewrite <- Es.
Qed.
End Params.
