(** C135: from the blueprint document to the handlers of the application. *)
From Coq Require Import Permutation.
From Verif Require Import Base Chars SubstModel SubstProps ResolveModel ResolveSpec BlueprintModel WfYamlModel WfYamlSpec WfYamlProofs SpecYamlModel SpecYamlSpec
  WfResolveModel WfResolveSpec WfResolveProofs SpecResolveModel SpecResolveSpec LoadModel LoadSpec LoadProofs LoadJsonModel LoadProps.
From Verif Require ApiModel ApiProofs ApiProps.
From Verif Require Import ApiSpec SetupModel SetupSpec SetupProofs.
Local Open Scope list_scope.

Section Params.
Variable F : Type.
Variable parse_f64 : text -> option F.
Variable k : classes.
Variable env : text -> option text.
Variable show_i : Z -> text.
Variable show_f : F -> text.
Hypothesis Hk : sane k.
Notation mapping := (list (option text * yaml)).
Notation load := (load F parse_f64 k env).
Notation started := (started F show_i show_f).
Notation annotated := (annotated F parse_f64 k env).
Notation annotation_text := (annotation_text F parse_f64 k env show_i show_f).
Notation handler_of := (handler_of F parse_f64 k env).
Notation text_of := (text_of k env).
Notation int_of := (int_of F parse_f64 k env).
Notation bool_of := (bool_of F parse_f64 k env).
Notation reads := (reads F parse_f64 k env show_i show_f).
Notation shows := (shows F parse_f64 k env show_i show_f).

Lemma started_shows m b asked health res : one_each (YMap m) -> load [YMap m] = Ok b -> started b asked health res ->
  exists b', shows m b' /\ res = ApiModel.setup b' asked health.
Proof. intros Hm Hl [b' S]. exists b'. split; [|reflexivity]. eapply shows_same; [exact S|]. apply document_shows; [exact Hm|]. now apply C120_exact. Qed.
Lemma setup_collects b' asked health app c : ApiModel.setup b' asked health = Ok app -> ApiModel.app_api app = Some c -> ApiModel.collect_api_config b' asked = Ok c.
Proof.
  unfold ApiModel.setup. destruct (ApiModel.collect_api_config b' asked) as [c'|[|]|]; try discriminate.
  - destruct (ApiModel.setup_server c' health); try discriminate. intros [= <-]. cbn. congruence.
  - intros [= <-]. discriminate.
Qed.
Lemma declared_each m t n d : one_each (YMap m) -> declares m t n d -> one_each (YMap d).
Proof. intros Hm (rs & H1 & H2 & _). eapply one_each_map; [eapply one_each_map; eassumption|eassumption]. Qed.
Lemma declared_once m t n d t' d' : one_each (YMap m) -> declares m t n d -> declares m t' n d' -> d = d' /\ t = t'.
Proof.
  intros Hm D (rs' & H1' & H2' & H3'). pose proof (declared_each _ _ _ _ Hm D) as Hd. destruct D as (rs & H1 & H2 & H3). assert (E := keys_once _ _ _ _ (one_each_keys m Hm) H1 H1'). injection E as <-.
  assert (E := keys_once _ _ _ _ (one_each_keys rs (one_each_map _ _ _ Hm H1)) H2 H2'). injection E as <-. split; [reflexivity|].
  assert (E := keys_once _ _ _ _ (one_each_keys d Hd) H3 H3'). now injection E.
Qed.
Lemma reads_type d r t : one_each (YMap d) -> reads d r -> In (Some (chars "type"), YStr t) d ->
  (ApiModel.r_type r = ApiModel.THandler <-> t = chars "celerity/handler") /\ (ApiModel.r_type r = ApiModel.THandlerConfig <-> t = chars "celerity/handlerConfig") /\ (ApiModel.r_type r = ApiModel.TApi <-> t = chars "celerity/api").
Proof.
  intros Hd R Ht. destruct (rd_type _ _ _ _ _ _ _ _ R) as (t' & ty & Ht' & Hin & ->). assert (E := keys_once _ _ _ _ (one_each_keys d Hd) Ht Ht'). injection E as <-. unfold type_names in Hin.
  repeat (destruct Hin as [Hin|Hin]; [injection Hin as <- <-; repeat split; intros X; try discriminate X; reflexivity|]). destruct Hin.
Qed.
Lemma handlers_known t : In t [chars "celerity/handler"; chars "celerity/handlerConfig"; chars "celerity/api"] -> In t (map fst type_names).
Proof. intros [<-|[<-|[<-|[]]]]; cbn; tauto. Qed.

Lemma api_declared m b' asked r : one_each (YMap m) -> shows m b' -> ApiSpec.is_api b' asked r -> exists api, declares_api m asked api /\ reads api r.
Proof.
  intros Hm S (n & Hi & Ht & Hn). destruct (sh_there _ _ _ _ _ _ _ _ S _ _ Hi) as (t & d & D & R). exists d. split; [|exact R]. exists n. split; [|exact Hn].
  pose proof D as (_ & _ & _ & Hty). apply (reads_type d r t (declared_each _ _ _ _ Hm D) R Hty) in Ht. now subst t.
Qed.
Lemma api_shown m b' asked api : one_each (YMap m) -> shows m b' -> declares_api m asked api -> exists r, ApiSpec.is_api b' asked r /\ reads api r.
Proof.
  intros Hm S (n & D & Hn). destruct (sh_back _ _ _ _ _ _ _ _ S _ _ _ D) as (r & Hi & R); [apply handlers_known; cbn; tauto|]. exists r. split; [|exact R]. exists n. split; [exact Hi|]. split; [|exact Hn].
  pose proof D as (_ & _ & _ & Hty). now apply (reads_type api r _ (declared_each _ _ _ _ Hm D) R Hty).
Qed.
Lemma linked_reads d e r r' key ty : reads d r -> reads e r' -> ApiModel.r_type r' = ty -> (linked_by d e key <-> touched_by key (selector r) ty r').
Proof.
  intros R R' Hty. unfold linked_by, touched_by. rewrite <- (rd_selector _ _ _ _ _ _ _ _ R key), <- (rd_label _ _ _ _ _ _ _ _ R' key). tauto.
Qed.
Lemma annotated_true d r a : reads d r -> (annotated d a (SBool F true) <-> has_annotation r a (ApiModel.SBool true)).
Proof.
  intros R. rewrite (rd_annotation _ _ _ _ _ _ _ _ R a). split.
  - intros H. exists (SBool F true). auto.
  - intros (s & Hs & E). symmetry in E. apply view_true in E. now subst s.
Qed.
Lemma annotation_shown d r a def t : reads d r -> annotation_or r a def t -> annotation_text d a def t.
Proof.
  intros R [(v & Hv & Ht)|[Hn ->]].
  - left. apply (rd_annotation _ _ _ _ _ _ _ _ R) in Hv. destruct Hv as (s & Hs & ->). exists s. split; [exact Hs|now apply view_written].
  - right. split; [|reflexivity]. intros v Hv. destruct (rd_annotated _ _ _ _ _ _ _ _ R a v Hv) as [s Hs]. elim (Hn s Hs).
Qed.
Lemma marked_declared m b' api rapi a n r : one_each (YMap m) -> shows m b' -> reads api rapi -> marked b' rapi a n r -> exists d, handler_of m api a n d /\ reads d r.
Proof.
  intros Hm S Ra (Hi & (key & T) & Ha). pose proof T as [Ht _]. destruct (sh_there _ _ _ _ _ _ _ _ S _ _ Hi) as (t & d & D & R). exists d. split; [|exact R]. split; [|split].
  - pose proof D as (_ & _ & _ & Hty). apply (reads_type d r t (declared_each _ _ _ _ Hm D) R Hty) in Ht. now subst t.
  - exists key. now apply (linked_reads api d rapi r key ApiModel.THandler).
  - now apply (annotated_true d r a).
Qed.
Lemma marked_shown m b' api rapi a n d : one_each (YMap m) -> shows m b' -> reads api rapi -> handler_of m api a n d -> exists r, marked b' rapi a n r /\ reads d r.
Proof.
  intros Hm S Ra (D & (key & L) & Ha). destruct (sh_back _ _ _ _ _ _ _ _ S _ _ _ D) as (r & Hi & R); [apply handlers_known; cbn; tauto|]. exists r. split; [|exact R]. split; [exact Hi|].
  pose proof D as (_ & _ & _ & Hty). assert (Ht : ApiModel.r_type r = ApiModel.THandler) by now apply (reads_type d r _ (declared_each _ _ _ _ Hm D) R Hty). split.
  - exists key. now apply (linked_reads api d rapi r key ApiModel.THandler).
  - now apply (annotated_true d r a).
Qed.
Lemma config_shown m b' d r c : one_each (YMap m) -> shows m b' -> reads d r -> config_of m d c ->
  exists o, configured b' r o /\ config_field c (chars "codeLocation") text_of (ApiModel.bind_opt o ApiModel.so_location) /\
    config_field c (chars "timeout") int_of (ApiModel.bind_opt o ApiModel.so_timeout) /\ config_field c (chars "tracingEnabled") bool_of (ApiModel.bind_opt o ApiModel.so_tracing).
Proof.
  intros Hm S R C.
  assert (Back : forall n rc, In (n, rc) (ApiModel.b_resources b') -> touched (selector r) ApiModel.THandlerConfig rc -> exists c', declares m (chars "celerity/handlerConfig") n c' /\ linked_to d c').
  { intros n rc Hi (key & T). pose proof T as [Ht _]. destruct (sh_there _ _ _ _ _ _ _ _ S _ _ Hi) as (t & e & D & Re). exists e. pose proof D as (_ & _ & _ & Hty). pose proof (proj1 (reads_type e rc t (declared_each _ _ _ _ Hm D) Re Hty)) as _.
    apply (reads_type e rc t (declared_each _ _ _ _ Hm D) Re Hty) in Ht as E. subst t. split; [exact D|]. exists key. now apply (linked_reads d e r rc key ApiModel.THandlerConfig). }
  destruct c as [c|].
  - destruct C as (name & D & (key & L) & U). destruct (sh_back _ _ _ _ _ _ _ _ S _ _ _ D) as (rc & Hi & Rc); [apply handlers_known; cbn; tauto|].
    pose proof D as (_ & _ & _ & Hty). assert (Ht : ApiModel.r_type rc = ApiModel.THandlerConfig) by now apply (reads_type c rc _ (declared_each _ _ _ _ Hm D) Rc Hty).
    destruct (rd_config _ _ _ _ _ _ _ _ Rc Ht) as (s & Es & S1 & S2 & S3). exists (Some s). split; [|split; [exact S1|split; [exact S2|exact S3]]]. exists name, rc. split; [exact Hi|]. split; [|split; [exact Es|]].
    + exists key. now apply (linked_reads d c r rc key ApiModel.THandlerConfig).
    + intros n' c' Hi' T'. destruct (Back _ _ Hi' T') as (e & D' & L'). now apply (U n' e).
  - exists None. split; [|repeat split]. intros n rc Hi T. destruct (Back _ _ Hi T) as (e & D' & L'). exact (C _ _ D' L').
Qed.

(** The HTTP handlers of an application are those of its document that are linked to the API and
    marked for HTTP, each once, at the method and the path of its annotations. *)
Theorem C135_http : forall m b asked health app c, one_each (YMap m) -> load [YMap m] = Ok b -> started b asked health (Ok app) -> ApiModel.app_api app = Some c ->
  exists api, declares_api m asked api /\
  (forall h, In h (http_handlers c) -> exists d path, handler_of m api (chars "celerity.handler.http") (ApiModel.h_handler h) d /\
     annotation_text d (chars "celerity.handler.http.method") (chars "GET") (fst (ApiModel.h_at h)) /\
     annotation_text d (chars "celerity.handler.http.path") (chars "/") path /\ converted path (snd (ApiModel.h_at h))) /\
  (forall n d, handler_of m api (chars "celerity.handler.http") n d -> exists h, In h (http_handlers c) /\ ApiModel.h_handler h = n) /\
  NoDup (map ApiModel.h_handler (http_handlers c)).
Proof.
  intros m b asked health app c Hm Hl Hs Ha. destruct (started_shows _ _ _ _ _ Hm Hl Hs) as (b' & S & E). symmetry in E. pose proof (setup_collects _ _ _ _ _ E Ha) as C.
  destruct (ApiProps.C49_collected b' asked c (sh_ok _ _ _ _ _ _ _ _ S) C) as (rapi & A & H1 & H2 & H3). destruct (api_declared m b' asked rapi Hm S A) as (api & D & Ra). exists api. split; [exact D|]. split; [|split; [|exact H3]].
  - intros h Hh. destruct (H1 h Hh) as (r & M & _ & An1 & path & An2 & Ep). destruct (marked_declared _ _ _ _ _ _ _ Hm S Ra M) as (d & Hd & R). exists d, path. split; [exact Hd|]. split; [now apply (annotation_shown d r)|]. split; [now apply (annotation_shown d r)|].
    rewrite Ep. destruct (ApiProps.C48_total path) as (ps & qs & P1 & P2 & P3). exists ps, qs. repeat split; try assumption. eapply ApiProps.C48_segments; eassumption.
  - intros n d Hd. destruct (marked_shown _ _ _ _ _ _ _ Hm S Ra Hd) as (r & M & _). exact (H2 n r M).
Qed.
(** The WebSocket handlers likewise, under the key of the API's messages. *)
Lemma protocols_key d ps key : protocols_read F parse_f64 k env d ps ->
  (forall qs k' rest, ps = qs ++ ApiModel.PWebSocketConfig (Some k') :: rest -> (forall o, ~ In (ApiModel.PWebSocketConfig o) qs) -> key = k') ->
  (forall qs rest, ps = qs ++ ApiModel.PWebSocketConfig None :: rest -> (forall o, ~ In (ApiModel.PWebSocketConfig o) qs) -> key = chars "event") ->
  ((forall o, ~ In (ApiModel.PWebSocketConfig o) ps) -> key = chars "event") -> message_key F parse_f64 k env d key.
Proof.
  intros (sm & l & H1 & H2 & H) P1 P2 P3. exists sm, l. split; [exact H1|]. split; [exact H2|].
  assert (G : forall l' ps', Forall2 (protocol_reads F parse_f64 k env) l' ps' ->
    (maps_of l' = [] /\ forall o, ~ In (ApiModel.PWebSocketConfig o) ps') \/
    exists p more w o qs rest, maps_of l' = p :: more /\ In (Some (chars "websocketConfig"), YMap w) p /\ optional w (chars "routeKey") (key_text F parse_f64 k env) o /\
      ps' = qs ++ ApiModel.PWebSocketConfig o :: rest /\ forall o', ~ In (ApiModel.PWebSocketConfig o') qs).
  { intros l' ps' Hf. induction Hf as [|v p l' ps' Hv Hf IH]; [left; split; [reflexivity|intros o []]|]. destruct Hv as [[Hv Hp]|(pm & w & o & -> & Hw & Ho & ->)].
    - assert (Em : maps_of (v :: l') = maps_of l') by (destruct v; try reflexivity; now elim (Hv m)). rewrite Em. destruct IH as [[E N]|(p' & more & w & o & qs & rest & E & I1 & I2 & -> & N)].
      + left. split; [exact E|]. intros o [X|X]; [exact (Hp o X)|exact (N o X)].
      + right. exists p', more, w, o, (p :: qs), rest. repeat split; try assumption. intros o' [X|X]; [exact (Hp o' X)|exact (N o' X)].
    - right. exists pm, (maps_of l'), w, o, [], ps'. repeat split; try assumption. intros o' []. }
  destruct (G l ps H) as [[-> N]|(p & more & w & o & qs & rest & -> & I1 & I2 & Ep & N)]; [now apply P3|]. exists w, o. split; [exact I1|]. split; [exact I2|].
  destruct o as [k'|]; [rewrite <- (P1 _ _ _ Ep N) in *; constructor|]. rewrite (P2 _ _ Ep N). constructor. constructor.
Qed.
Theorem C135_websocket : forall m b asked health app c, one_each (YMap m) -> load [YMap m] = Ok b -> started b asked health (Ok app) -> ApiModel.app_api app = Some c ->
  exists api, declares_api m asked api /\
  (forall h, In h (ws_handlers c) -> exists d, handler_of m api (chars "celerity.handler.websocket") (ApiModel.h_handler h) d /\
     message_key F parse_f64 k env api (fst (ApiModel.h_at h)) /\
     annotation_text d (chars "celerity.handler.websocket.route") (chars "$default") (snd (ApiModel.h_at h))) /\
  (forall n d, handler_of m api (chars "celerity.handler.websocket") n d -> exists h, In h (ws_handlers c) /\ ApiModel.h_handler h = n) /\
  NoDup (map ApiModel.h_handler (ws_handlers c)).
Proof.
  intros m b asked health app c Hm Hl Hs Ha. destruct (started_shows _ _ _ _ _ Hm Hl Hs) as (b' & S & E). symmetry in E. pose proof (setup_collects _ _ _ _ _ E Ha) as C.
  destruct (ApiProps.C74_handlers b' asked c (sh_ok _ _ _ _ _ _ _ _ S) C) as (rapi & A & H1 & H2 & H3). destruct (api_declared m b' asked rapi Hm S A) as (api & D & Ra). exists api. split; [exact D|]. split; [|split; [|exact H3]].
  - intros h Hh. destruct (H1 h Hh) as (r & ps & t & M & _ & Es & K1 & K2 & K3 & An). destruct (marked_declared _ _ _ _ _ _ _ Hm S Ra M) as (d & Hd & R). exists d. split; [exact Hd|]. split; [|now apply (annotation_shown d r)].
    destruct A as (n & _ & At & _). destruct (rd_api _ _ _ _ _ _ _ _ Ra At) as (ps' & t' & Es' & _ & P). assert (ps' = ps) as -> by congruence. eapply protocols_key; eassumption.
  - intros n d Hd. destruct (marked_shown _ _ _ _ _ _ _ Hm S Ra Hd) as (r & M & _). exact (H2 n r M).
Qed.
(** The API is traced when its spec says so. *)
Theorem C135_api_tracing : forall m b asked health app c, one_each (YMap m) -> load [YMap m] = Ok b -> started b asked health (Ok app) -> ApiModel.app_api app = Some c ->
  exists api o, declares_api m asked api /\ spec_field api (chars "tracingEnabled") bool_of o /\ (ApiModel.ac_tracing c = true <-> o = Some true).
Proof.
  intros m b asked health app c Hm Hl Hs Ha. destruct (started_shows _ _ _ _ _ Hm Hl Hs) as (b' & S & E). symmetry in E. pose proof (setup_collects _ _ _ _ _ E Ha) as C.
  destruct (ApiProps.C47_api b' asked c C) as (rapi & A & T). destruct (api_declared m b' asked rapi Hm S A) as (api & D & Ra). destruct A as (n & _ & At & _). destruct (rd_api _ _ _ _ _ _ _ _ Ra At) as (ps & t & Es & Ht & _).
  exists api, t. split; [exact D|]. split; [exact Ht|]. rewrite T, Es. split; [intros (ps' & [= _ ->]); reflexivity|]. intros ->. now exists ps.
Qed.
(** The settings of a handler: each from the first place that gives it, as the document writes it;
    its own timeout and that of its handler config are raised to an hour. *)
Theorem C135_settings : forall m b asked health app c h, one_each (YMap m) -> load [YMap m] = Ok b -> started b asked health (Ok app) -> ApiModel.app_api app = Some c ->
  In h (http_handlers c ++ ws_handlers c) ->
  exists d, declares m (chars "celerity/handler") (ApiModel.h_handler h) d /\ forall cfg, config_of m d cfg ->
    (exists o1 o2 o3, places m d cfg (chars "codeLocation") text_of o1 o2 o3 /\ first_given [o1; o2; o3] (Some (ApiModel.h_location h))) /\
    (exists o1 o2 o3, places m d cfg (chars "tracingEnabled") bool_of o1 o2 o3 /\ (ApiModel.h_tracing h = true <-> first_given [o1; o2; o3] (Some true))) /\
    (exists o1 o2 o3, places m d cfg (chars "timeout") int_of o1 o2 o3 /\
       (forall t, first_given [o1; o2] (Some t) -> ApiModel.h_timeout h = Z.max t 3600) /\
       (first_given [o1; o2] None -> first_given [o3; Some 60%Z] (Some (ApiModel.h_timeout h)))).
Proof.
  intros m b asked health app c h Hm Hl Hs Ha Hh. destruct (started_shows _ _ _ _ _ Hm Hl Hs) as (b' & S & E). symmetry in E. pose proof (setup_collects _ _ _ _ _ E Ha) as C.
  pose proof (sh_ok _ _ _ _ _ _ _ _ S) as K. destruct (ApiProps.C46_exact b' asked c h K C Hh) as (r & s & Hi & Es & T). destruct (ApiProps.C47_first b' asked c h K C Hh) as (r' & Hi' & _ & s' & Es' & G).
  assert (r' = r) as -> by (eapply ApiProofs.map_ok_eq; [apply K|eassumption|eassumption]). assert (s' = s) as -> by congruence.
  destruct (sh_there _ _ _ _ _ _ _ _ S _ _ Hi) as (t & d & D & R). pose proof D as (_ & _ & _ & Hty). pose proof (reads_type d r t (declared_each _ _ _ _ Hm D) R Hty) as (Y1 & Y2 & Y3).
  assert (Ht : ApiModel.r_type r = ApiModel.THandler).
  { destruct (ApiProps.collected _ _ _ _ K C Hh) as (r2 & _ & G1 & G2 & _). assert (r2 = r) as -> by (eapply ApiProofs.map_ok_eq; [apply K|eassumption|eassumption]). exact G2. }
  apply Y1 in Ht as Et. subst t. exists d. split; [exact D|]. intros cfg Hc. destruct (rd_handler _ _ _ _ _ _ _ _ R Ht) as (s2 & Es2 & S1 & S2 & S3). assert (s2 = s) as -> by congruence.
  destruct (config_shown _ _ _ _ _ Hm S R Hc) as (o & Ho & C1 & C2 & C3). destruct (sh_shared _ _ _ _ _ _ _ _ S) as (F1 & F2 & F3). destruct (T o Ho) as [T1 T2]. destruct (G o Ho) as [G1 G2].
  split; [|split].
  - eexists _, _, _. split; [split; [exact S1|split; [exact C1|exact F1]]|exact G1].
  - eexists _, _, _. split; [split; [exact S3|split; [exact C3|exact F3]]|exact G2].
  - eexists _, _, _. split; [split; [exact S2|split; [exact C2|exact F2]]|]. split; [exact T1|exact T2].
Qed.
(** An application has an API exactly when its document declares the one asked for; otherwise it
    starts without a server and says nothing. *)
Theorem C135_missing_refuted : forall m b asked health res, one_each (YMap m) -> load [YMap m] = Ok b -> started b asked health res ->
  ((forall api, ~ declares_api m asked api) <-> res = Ok (ApiModel.mk_app None None)).
Proof.
  intros m b asked health res Hm Hl Hs. destruct (started_shows _ _ _ _ _ Hm Hl Hs) as (b' & S & ->). split.
  - intros N. apply ApiProps.C77_missing_refuted. intros r A. destruct (api_declared m b' asked r Hm S A) as (api & D & _). exact (N api D).
  - intros E api D. destruct (api_shown m b' asked api Hm S D) as (r & A & _). destruct (ApiProps.C77_found b' asked health r _ A E) as (c & sv & [=]).
Qed.
(** What keeps an application from starting: a handler linked by two labels, one marked for both
    kinds, and one without a code location. *)
Theorem C135_rejects : forall m b name health res api mark n d, one_each (YMap m) -> load [YMap m] = Ok b -> started b (Some name) health res ->
  declares_api m (Some name) api -> In mark [chars "celerity.handler.http"; chars "celerity.handler.websocket"] -> handler_of m api mark n d ->
  (exists key key', key <> key' /\ linked_by api d key /\ linked_by api d key') \/
  (annotated d (chars "celerity.handler.http") (SBool F true) /\ annotated d (chars "celerity.handler.websocket") (SBool F true)) \/
  (exists cfg, config_of m d cfg /\ spec_field d (chars "codeLocation") (fun _ (_ : text) => True) None /\ config_field cfg (chars "codeLocation") (fun _ (_ : text) => True) None /\
     shared_field m (chars "codeLocation") (fun _ (_ : text) => True) None) ->
  res = Err ApiModel.ApiError.
Proof.
  intros m b name health res api mark n d Hm Hl Hs Da Hmark Hd Bad. destruct (started_shows _ _ _ _ _ Hm Hl Hs) as (b' & S & ->). destruct (api_shown m b' _ api Hm S Da) as (rapi & A & Ra). destruct (marked_shown _ _ _ _ _ _ _ Hm S Ra Hd) as (r & M & R).
  pose proof (sh_ok _ _ _ _ _ _ _ _ S) as K. assert (Ht : ApiModel.r_type r = ApiModel.THandler) by (destruct M as (_ & (key & T & _) & _); exact T).
  assert (E : ApiModel.collect_api_config b' (Some name) = Err ApiModel.ApiError); [|unfold ApiModel.setup; now rewrite E].
  apply (ApiProps.C49_rejects b' name rapi mark n r K A); [destruct Hmark as [<-|[<-|[]]]; auto|exact M|]. destruct Bad as [(key & key' & Ne & L1 & L2)|[[A1 A2]|(cfg & Hc & N1 & N2 & N3)]].
  - left. exists key, key'. split; [exact Ne|]. split; now apply (linked_reads api d rapi r _ ApiModel.THandler).
  - right. left. split; now apply (annotated_true d r).
  - right. right. destruct (config_shown _ _ _ _ _ Hm S R Hc) as (o & Ho & C1 & _). split; [now exists o|]. intros (s & o' & l & Es & Ho' & Fg).
    assert (Eo : ApiModel.bind_opt o' ApiModel.so_location = None).
    { assert (Eo : o' = o).
      { destruct o as [s1|], o' as [s2|]; cbn in Ho, Ho'.
        - destruct Ho as (n1 & c1 & I1 & T1 & E1 & U1), Ho' as (n2 & c2 & I2 & T2 & E2 & U2). assert (n2 = n1) as -> by (eapply U1; eassumption). assert (c2 = c1) as -> by (eapply ApiProofs.map_ok_eq; [apply K|eassumption|eassumption]). congruence.
        - destruct Ho as (n1 & c1 & I1 & T1 & _). elim (Ho' _ _ I1 T1).
        - destruct Ho' as (n2 & c2 & I2 & T2 & _). elim (Ho _ _ I2 T2).
        - reflexivity. }
      subst o'. destruct cfg as [c|]; [|exact C1]. destruct N2 as (sm & Hsm & [(v & x & _ & _ & [=])|[Lk _]]). destruct Hc as (nc & Dc & _). eapply spec_field_lacks; [exact (declared_each _ _ _ _ Hm Dc)|exact Hsm|exact Lk|exact C1]. }
    assert (Es' : ApiModel.so_location s = None).
    { destruct (rd_handler _ _ _ _ _ _ _ _ R Ht) as (s2 & Es2 & S1 & _). assert (s2 = s) as -> by congruence. destruct N1 as (sm & Hsm & [(v & x & _ & _ & [=])|[Lk _]]). destruct Hd as (Dd & _). eapply spec_field_lacks; [exact (declared_each _ _ _ _ Hm Dd)|exact Hsm|exact Lk|exact S1]. }
    assert (Eh : ApiModel.bind_opt (ApiModel.b_shared b') ApiModel.so_location = None).
    { destruct (sh_shared _ _ _ _ _ _ _ _ S) as (F1 & _). destruct N3 as [(mm & w & H1 & H2 & [(v & x & _ & _ & [=])|[Lk _]])|(Nn & _)].
      - destruct F1 as [(mm' & w' & H1' & H2' & Ho1)|(Nn & _)]; [|elim (Nn _ _ H1 H2)]. assert (Eq := keys_once _ _ _ _ (one_each_keys m Hm) H1 H1'). injection Eq as <-. assert (Eq := keys_once _ _ _ _ (one_each_keys mm (one_each_map _ _ _ Hm H1)) H2 H2'). injection Eq as <-.
        destruct Ho1 as [(v & x & Hv & _)|[_ Ex]]; [|exact Ex]. elim Lk. apply keys_in. eauto.
      - destruct F1 as [(mm & w & H1 & H2 & _)|(_ & Ex)]; [elim (Nn _ _ H1 H2)|exact Ex]. }
    rewrite Es', Eo, Eh in Fg. inversion Fg as [|? ? Fg1|]; subst. inversion Fg1 as [|? ? Fg2|]; subst. inversion Fg2 as [|? ? Fg3|]; subst. inversion Fg3.
Qed.
(** An API with handlers of both kinds never starts. *)
Theorem C135_hybrid_refuted : forall m b name health res api n d n' d', one_each (YMap m) -> load [YMap m] = Ok b -> started b (Some name) health res ->
  declares_api m (Some name) api -> handler_of m api (chars "celerity.handler.http") n d -> handler_of m api (chars "celerity.handler.websocket") n' d' -> res = Err ApiModel.ApiError.
Proof.
  intros m b name health res api n d n' d' Hm Hl Hs Da H H'. destruct (started_shows _ _ _ _ _ Hm Hl Hs) as (b' & S & ->). destruct (api_shown m b' _ api Hm S Da) as (rapi & A & Ra).
  destruct (marked_shown _ _ _ _ _ _ _ Hm S Ra H) as (r & M & _). destruct (marked_shown _ _ _ _ _ _ _ Hm S Ra H') as (r' & M' & _). exact (ApiProps.C50_hybrid_refuted b' name rapi n r n' r' health (sh_ok _ _ _ _ _ _ _ _ S) A M M').
Qed.
(** Everything else starts: handlers of one kind, each linked by one label and with a location. *)
Lemma text_of_once v t t' : text_of v t -> text_of v t' -> t = t'.
Proof. intros (ps & (u & -> & H1) & H2) (ps' & (u' & [= <-] & H1') & H2'). assert (ps' = ps) as -> by congruence. apply str_ok in H2, H2'. congruence. Qed.
Lemma optional_once {A} (R : yaml -> A -> Prop) sm key o o' : (forall v a a', R v a -> R v a' -> a = a') -> NoDup (keys_of sm) -> optional sm key R o -> optional sm key R o' -> o = o'.
Proof.
  intros H Hn [(v & a & Hv & Ha & ->)|[Hl ->]] [(v' & a' & Hv' & Ha' & ->)|[Hl' ->]]; [|elim Hl'; apply keys_in; eauto|elim Hl; apply keys_in; eauto|reflexivity].
  assert (v = v') as <- by (eapply keys_once; eassumption). f_equal. eapply H; eassumption.
Qed.
Lemma spec_field_once {A} (R : yaml -> A -> Prop) d key o o' : (forall v a a', R v a -> R v a' -> a = a') -> one_each (YMap d) -> spec_field d key R o -> spec_field d key R o' -> o = o'.
Proof.
  intros H Hd (sm & Hs & Ho) (sm' & Hs' & Ho'). assert (E := keys_once _ _ _ _ (one_each_keys d Hd) Hs Hs'). injection E as <-. eapply optional_once; try eassumption. apply one_each_keys. eapply one_each_map; eassumption.
Qed.
Lemma shared_field_once {A} (R : yaml -> A -> Prop) m key o o' : (forall v a a', R v a -> R v a' -> a = a') -> one_each (YMap m) -> shared_field m key R o -> shared_field m key R o' -> o = o'.
Proof.
  intros H Hm [(mm & w & H1 & H2 & Ho)|(N & ->)] [(mm' & w' & H1' & H2' & Ho')|(N' & ->)]; [|elim (N' _ _ H1 H2)|elim (N _ _ H1' H2')|reflexivity].
  assert (E := keys_once _ _ _ _ (one_each_keys m Hm) H1 H1'). injection E as <-. pose proof (one_each_map _ _ _ Hm H1) as Hmm. assert (E := keys_once _ _ _ _ (one_each_keys mm Hmm) H2 H2'). injection E as <-.
  eapply optional_once; try eassumption. apply one_each_keys. eapply one_each_map; eassumption.
Qed.
Theorem C135_starts : forall m b name health res api, one_each (YMap m) -> load [YMap m] = Ok b -> started b (Some name) health res -> declares_api m (Some name) api ->
  (forall mark n d, In mark [chars "celerity.handler.http"; chars "celerity.handler.websocket"] -> handler_of m api mark n d ->
     (forall key key', linked_by api d key -> linked_by api d key' -> key = key') /\
     exists cfg o1 o2 o3 l, config_of m d cfg /\ places m d cfg (chars "codeLocation") text_of o1 o2 o3 /\ first_given [o1; o2; o3] (Some l)) ->
  (forall n d, ~ handler_of m api (chars "celerity.handler.http") n d) \/ (forall n d, ~ handler_of m api (chars "celerity.handler.websocket") n d) ->
  exists c sv, res = Ok (ApiModel.mk_app (Some c) (Some sv)) /\ (ApiModel.sv_health sv = true <-> health = false) /\
    (ApiModel.sv_ws sv <> None <-> exists n d, handler_of m api (chars "celerity.handler.websocket") n d).
Proof.
  intros m b name health res api Hm Hl Hs Da Good One. destruct (started_shows _ _ _ _ _ Hm Hl Hs) as (b' & S & ->). destruct (api_shown m b' _ api Hm S Da) as (rapi & A & Ra). pose proof (sh_ok _ _ _ _ _ _ _ _ S) as K.
  pose proof A as (na & Ia & Ta & _). destruct (rd_api _ _ _ _ _ _ _ _ Ra Ta) as (ps & tr & Es & _).
  assert (Kd : forall n d d' mark mark', handler_of m api mark n d -> handler_of m api mark' n d' -> d = d') by (intros n d d' mk mk' (D & _) (D' & _); eapply declared_once; eassumption).
  destruct (ApiProps.C49_accepts b' name rapi ps tr K A Es) as [c C].
  { intros a n r Ea M. destruct (marked_declared _ _ _ _ _ _ _ Hm S Ra M) as (d & Hd & R). assert (Ht : ApiModel.r_type r = ApiModel.THandler) by (destruct M as (_ & (key & T & _) & _); exact T).
    destruct (Good a n d) as [G1 (cfg & o1 & o2 & o3 & l & Hc & (P1 & P2 & P3) & Fg)]; [destruct Ea as [-> | ->]; cbn; auto|exact Hd|]. split; [|split].
    - intros key key' T T'. apply G1; now apply (linked_reads api d rapi r _ ApiModel.THandler).
    - intros [A1 A2]. apply (annotated_true d r) in A1, A2; try exact R. destruct Hd as (D & L & _). destruct One as [N|N]; eapply N; (split; [exact D|split; [exact L|assumption]]).
    - destruct (rd_handler _ _ _ _ _ _ _ _ R Ht) as (s & Ss & S1 & _). destruct (config_shown _ _ _ _ _ Hm S R Hc) as (o & Ho & C1 & _). destruct (sh_shared _ _ _ _ _ _ _ _ S) as (F1 & _).
      exists s, o, l. split; [exact Ss|]. split; [exact Ho|]. destruct Hd as (D & _).
      rewrite <- (spec_field_once _ _ _ _ _ text_of_once (declared_each _ _ _ _ Hm D) P1 S1), <- (shared_field_once _ _ _ _ _ text_of_once Hm P3 F1).
      replace (ApiModel.bind_opt o ApiModel.so_location) with o2; [exact Fg|]. destruct cfg as [cd|]; [|cbn in P2, C1; congruence]. destruct Hc as (nc & Dc & _). exact (spec_field_once _ _ _ _ _ text_of_once (declared_each _ _ _ _ Hm Dc) P2 C1). }
  destruct (ApiProps.C49_collected b' _ c K C) as (ra1 & A1 & H1 & _). destruct (ApiProps.C74_handlers b' _ c K C) as (ra2 & A2 & W1 & W2 & _).
  assert (Er : forall r', ApiSpec.is_api b' (Some name) r' -> r' = rapi).
  { intros r' (n' & I' & _ & N'). destruct A as (n0 & I0 & _ & N0). pose proof (N' _ eq_refl) as <-. pose proof (N0 _ eq_refl) as <-. eapply ApiProofs.map_ok_eq; [apply K|exact I'|exact I0]. }
  apply Er in A1, A2. subst ra1 ra2.
  assert (W : ws_handlers c <> [] <-> exists n d, handler_of m api (chars "celerity.handler.websocket") n d).
  { split.
    - intros Ne. destruct (ws_handlers c) as [|h hs] eqn:Ew; [now elim Ne|]. destruct (W1 h (or_introl eq_refl)) as (r & _ & _ & M & _). destruct (marked_declared _ _ _ _ _ _ _ Hm S Ra M) as (d & Hd & _). eauto.
    - intros (n & d & Hd) Ew. destruct (marked_shown _ _ _ _ _ _ _ Hm S Ra Hd) as (r & M & _). destruct (W2 n r M) as (h & Hh & _). rewrite Ew in Hh. exact Hh. }
  destruct (ApiProps.C50_single b' (Some name) c health C) as (sv & E & Hh & Hw).
  { destruct One as [N|N].
    - left. destruct (http_handlers c) as [|h hs] eqn:Eh; [reflexivity|]. destruct (H1 h (or_introl eq_refl)) as (r & M & _). destruct (marked_declared _ _ _ _ _ _ _ Hm S Ra M) as (d & Hd & _). elim (N _ _ Hd).
    - right. destruct (ws_handlers c) as [|h hs] eqn:Eh; [reflexivity|]. destruct (proj1 W) as (n & d & Hd); [discriminate|]. elim (N _ _ Hd). }
  exists c, sv. split; [exact E|]. split; [exact Hh|]. rewrite Hw. exact W.
Qed.
(** An annotation that is the text "true" and not the truth value does not mark a handler: it is
    left out without a word.  A reference to a variable whose value is "true" does. *)
Theorem C135_quoted_refuted : forall m b asked health app c d n, one_each (YMap m) -> load [YMap m] = Ok b -> started b asked health (Ok app) -> ApiModel.app_api app = Some c ->
  declares m (chars "celerity/handler") n d ->
  (metadata_entry d (chars "annotations") (chars "celerity.handler.http") (YStr (chars "true")) -> ~ In n (map ApiModel.h_handler (http_handlers c))) /\
  (metadata_entry d (chars "annotations") (chars "celerity.handler.websocket") (YStr (chars "true")) -> ~ In n (map ApiModel.h_handler (ws_handlers c))).
Proof.
  intros m b asked health app c d n Hm Hl Hs Ha D.
  assert (Q : forall a, metadata_entry d (chars "annotations") a (YStr (chars "true")) -> ~ annotated d a (SBool F true)).
  { intros a Hq (v & Hv & s). pose proof (metadata_once _ _ _ _ _ (declared_each _ _ _ _ Hm D) Hq Hv) as <-. destruct s as (x & Hx & Hsc). inversion Hx as [| | |t ps Hp| |]; subst. rewrite (C51_plain_text k (chars "true") eq_refl) in Hp. injection Hp as <-.
    destruct Hsc as [[=]|(ps & [= <-] & P)]. inversion P. }
  split; intros Hq Hin; apply in_map_iff in Hin; destruct Hin as (h & Eh & Hh).
  - destruct (C135_http _ _ _ _ _ _ Hm Hl Hs Ha) as (api & _ & H1 & _). destruct (H1 h Hh) as (d' & _ & (D' & _ & An) & _). rewrite Eh in D'. destruct (declared_once _ _ _ _ _ _ Hm D D') as [<- _]. exact (Q _ Hq An).
  - destruct (C135_websocket _ _ _ _ _ _ Hm Hl Hs Ha) as (api & _ & H1 & _). destruct (H1 h Hh) as (d' & (D' & _ & An) & _). rewrite Eh in D'. destruct (declared_once _ _ _ _ _ _ Hm D D') as [<- _]. exact (Q _ Hq An).
Qed.

(** The format of a blueprint file follows its name alone, letter case included. *)
Section Files.
Variable json_text : text -> option text.
Variable of_int : Z -> F.
Variable read_yaml : text -> option (list yaml).
Variable read_jsonc : text -> option yaml.
Notation load_file := (load_file F parse_f64 k env json_text of_int read_yaml read_jsonc).
Lemma ends_with_spec suffix t : ends_with suffix t = true <-> exists u, t = u ++ suffix.
Proof.
  unfold ends_with. rewrite teq. split.
  - intros E. exists (firstn (length t - length suffix) t). rewrite <- E at 2. now rewrite firstn_skipn.
  - intros (u & ->). rewrite app_length, Nat.add_sub. rewrite skipn_app, skipn_all, Nat.sub_diag. reflexivity.
Qed.
Theorem C135_format : forall path c,
  ((exists u, path = u ++ chars ".json" \/ path = u ++ chars ".jsonc") -> load_file path (Some c) = match read_jsonc c with Some d => load_json F parse_f64 k json_text of_int env d | None => Err EFormat end) /\
  ((forall u, path <> u ++ chars ".json" /\ path <> u ++ chars ".jsonc") -> load_file path (Some c) = match read_yaml c with Some docs => load docs | None => Err EFormat end) /\
  load_file path None = Err EFormat.
Proof.
  intros path c. unfold SetupModel.load_file. split; [|split; [|reflexivity]].
  - intros (u & [H|H]); [rewrite (proj2 (ends_with_spec (chars ".json") path)) by eauto; reflexivity|]. rewrite (proj2 (ends_with_spec (chars ".jsonc") path)) by eauto. now rewrite orb_true_r.
  - intros H. destruct (ends_with (chars ".json") path) eqn:E1; [apply ends_with_spec in E1; destruct E1 as [u Hu]; elim (proj1 (H u) Hu)|].
    destruct (ends_with (chars ".jsonc") path) eqn:E2; [apply ends_with_spec in E2; destruct E2 as [u Hu]; elim (proj2 (H u) Hu)|]. reflexivity.
Qed.
End Files.
End Params.

From Verif Require Import WfYamlProps SpecYamlProps.
(** A blueprint that starts: two handlers, one marked by a reference to a variable, and a third that
    is left out because its mark is a text *)
Definition shop (more : list (option text * yaml)) : list (option text * yaml) :=
  [(K "version", T "2025-05-12");
   (K "resources", YMap ([
      (K "shop", YMap [(K "type", T "celerity/api"); (K "linkSelector", YMap [(K "byLabel", YMap [(K "app", T "shop")])]);
                       (K "spec", YMap [(K "protocols", YSeq [T "http"; YMap [(K "websocketConfig", YMap [(K "routeKey", T "action")])]]); (K "tracingEnabled", YBool true)])]);
      (K "list", YMap [(K "type", T "celerity/handler");
                       (K "metadata", YMap [(K "displayName", T "List"); (K "labels", YMap [(K "app", T "shop")]);
                                            (K "annotations", YMap [(K "celerity.handler.http", YBool true); (K "celerity.handler.http.path", T "/orders/{id}")])]);
                       (K "linkSelector", YMap [(K "byLabel", YMap [(K "base", T "yes")])]);
                       (K "spec", YMap [(K "handler", T "list"); (K "timeout", YInt 30)])]);
      (K "add", YMap [(K "type", T "celerity/handler");
                      (K "metadata", YMap [(K "displayName", T "Add"); (K "labels", YMap [(K "app", T "shop")]);
                                           (K "annotations", YMap [(K "celerity.handler.http", T "${variables.on}"); (K "celerity.handler.http.method", T "POST")])]);
                      (K "spec", YMap [(K "handler", T "add"); (K "codeLocation", T "./add")])]);
      (K "old", YMap [(K "type", T "celerity/handler");
                      (K "metadata", YMap [(K "displayName", T "Old"); (K "labels", YMap [(K "app", T "shop")]); (K "annotations", YMap [(K "celerity.handler.http", T "true")])]);
                      (K "spec", YMap [(K "handler", T "old"); (K "codeLocation", T "./old")])]);
      (K "base", YMap [(K "type", T "celerity/handlerConfig"); (K "metadata", YMap [(K "displayName", T "Base"); (K "labels", YMap [(K "base", T "yes")])]);
                       (K "spec", YMap [(K "codeLocation", T "./base")])])] ++ more));
   (K "metadata", YMap [(K "sharedHandlerConfig", YMap [(K "tracingEnabled", YBool true)])])].
Definition socket : list (option text * yaml) :=
  [(K "talk", YMap [(K "type", T "celerity/handler");
                    (K "metadata", YMap [(K "displayName", T "Talk"); (K "labels", YMap [(K "app", T "shop")]); (K "annotations", YMap [(K "celerity.handler.websocket", YBool true)])]);
                    (K "spec", YMap [(K "handler", T "talk"); (K "codeLocation", T "./talk")])])].
Definition switched_on (n : text) : option text := if text_eqb n (chars "CELERITY_VARIABLE_on") then Some (chars "true") else None.
Definition number_text (z : Z) : text := chars "7".
Lemma same_self b : same_blueprint b b.
Proof.
  split; [reflexivity|]. exists (ApiModel.b_resources b). split; [apply Permutation_refl|]. induction (ApiModel.b_resources b) as [|[n r] l IH]; constructor; [|exact IH]. split; [reflexivity|]. repeat split; unfold same_map; cbn;
  match goal with |- context [match ?o with Some _ => _ | None => _ end] => destruct o end; auto using Permutation_refl.
Qed.
Lemma started_is b n h o : ApiModel.setup (SetupModel.view Z number_text number_text b) n h = o -> started Z number_text number_text b n h o.
Proof. intros <-. constructor. apply same_self. Qed.
Example C135_nonvacuous : one_each (YMap (shop [])) /\
  (exists b app c, load Z tenths ascii_classes switched_on [YMap (shop [])] = Ok b /\ started Z number_text number_text b (Some (chars "shop")) false (Ok app) /\ ApiModel.app_api app = Some c /\
     map (fun h => (ApiModel.h_handler h, ApiModel.h_at h)) (http_handlers c) = [(chars "list", (chars "GET", chars "/orders/:id")); (chars "add", (chars "POST", chars "/"))] /\
     map (fun h => (ApiModel.h_location h, ApiModel.h_timeout h, ApiModel.h_tracing h)) (http_handlers c) = [(chars "./base", 3600%Z, true); (chars "./add", 60%Z, true)] /\
     ws_handlers c = [] /\ ApiModel.ac_tracing c = true) /\
  (exists b, one_each (YMap (shop socket)) /\ load Z tenths ascii_classes switched_on [YMap (shop socket)] = Ok b /\ started Z number_text number_text b (Some (chars "shop")) false (Err ApiModel.ApiError)) /\
  (exists u, chars "app.blueprint.jsonc" = u ++ chars ".json" \/ chars "app.blueprint.jsonc" = u ++ chars ".jsonc") /\ (forall u, chars "a.yml" <> u ++ chars ".json").
Proof.
  split; [apply once_sound; vm_compute; reflexivity|]. split; [|split; [|split]].
  - eexists. eexists. eexists. split; [vm_compute; reflexivity|]. split; [|split; [|split; [|split; [|split]]]].
    + apply started_is. vm_compute. reflexivity.
    + reflexivity.
    + reflexivity.
    + reflexivity.
    + reflexivity.
    + reflexivity.
  - eexists. split; [apply once_sound; vm_compute; reflexivity|]. split; [vm_compute; reflexivity|].
    apply started_is. vm_compute. reflexivity.
  - exists (chars "app.blueprint"). right. reflexivity.
  - intros u E. apply (f_equal (@rev N)) in E. rewrite rev_app_distr in E. discriminate E.
Qed.
Print Assumptions C135_http.
Print Assumptions C135_websocket.
Print Assumptions C135_api_tracing.
Print Assumptions C135_settings.
Print Assumptions C135_missing_refuted.
Print Assumptions C135_rejects.
Print Assumptions C135_hybrid_refuted.
Print Assumptions C135_starts.
Print Assumptions C135_quoted_refuted.
Print Assumptions C135_format.
