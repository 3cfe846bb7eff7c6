(** C162: from the blueprint document to the answer of a request *)
From Verif Require Import Base Chars SubstModel SubstProps ResolveModel ResolveSpec BlueprintModel WfYamlModel WfYamlSpec LoadModel SpecJsonSpec LoadJsonModel PortableSpec PortableProofs FormatProps.
From Verif Require ApiModel.
From Verif Require Import ApiSpec SetupModel SetupSpec SetupProofs SetupProps IdModel IdSpec RouteModel RouteSpec RouteProps TraceModel TraceSpec TraceProps ServeModel ServeSpec.
Local Open Scope list_scope.

Section Params.
Variable F : Type.
Variable parse_f64 : text -> option F.
Variable k : classes.
Variable env : text -> option text.
Variable show_i : Z -> text.
Variable show_f : F -> text.
Hypothesis Hk : sane k.
Notation mapping := (list (option text * yaml)).
Notation load := (load F parse_f64 k env).
Notation started := (started F show_i show_f).
Notation annotation_text := (annotation_text F parse_f64 k env show_i show_f).
Notation handler_of := (handler_of F parse_f64 k env).
Notation bool_of := (bool_of F parse_f64 k env).
Variable valid : text -> bool.
Variable clash : text -> text -> bool.
Variable resolve : list text -> text -> option text.
Variable body R : Type.
Variable status : R -> N.
Variable rejected not_found not_allowed : R.
Variable health_check web_socket : http_request body -> R * list text.
Variable code : text -> http_request body -> R * list text.
Notation serve := (serve resolve body R status rejected not_found not_allowed health_check web_socket code).

Notation running := (running F parse_f64 k env show_i show_f valid clash).
Notation given := (given body).

Lemma started_setup b asked health res : started b asked health res -> exists b', res = ApiModel.setup b' asked health.
Proof. intros [b' _]. eauto. Qed.
Lemma serve_is c r on p new g heads line peer v path b id : has_id heads g id ->
  fst (serve c r (http_handlers c) on p new g heads line peer v path b) =
  fst (answer_by resolve body R not_found not_allowed health_check web_socket code r (http_handlers c) (given heads line peer id v path b)).
Proof. intros I. unfold ServeModel.serve. now rewrite (C159_transparent _ R status rejected _ on p new g _ heads line peer _ None id I). Qed.

(** A request whose method and path are those of a handler that the document declares for the API is
    answered by that handler's code, whether the application traces or not. *)
Theorem C162_answered : forall m asked health c r, running m asked health c r -> exists api, declares_api m asked api /\
  forall n d, handler_of m api (chars "celerity.handler.http") n d -> exists method path route,
    annotation_text d (chars "celerity.handler.http.method") (chars "GET") method /\
    annotation_text d (chars "celerity.handler.http.path") (chars "/") path /\ converted path route /\
    forall v at_path, names method v -> resolve (map rt_path r) at_path = Some route ->
    forall on p new g heads line peer b id, has_id heads g id ->
      fst (serve c r (http_handlers c) on p new g heads line peer v at_path b) = fst (code n (given heads line peer id v at_path b)).
Proof.
  intros m asked health c r [Hm (b & sv & r0 & L & St & S & Rg)]. destruct (C135_http _ _ _ _ _ _ Hk m b asked health _ c Hm L St eq_refl) as (api & D & H1 & H2 & _).
  exists api. split; [exact D|]. intros n d Hd. destruct (H2 n d Hd) as (h & Ih & Nh). destruct (H1 h Ih) as (d' & path & Hd' & M & P & C).
  assert (d' = d) as ->. { rewrite Nh in Hd'. destruct Hd as (Hd & _), Hd' as (Hd' & _). exact (proj1 (declared_once m _ n d' _ d Hm Hd' Hd)). }
  exists (fst (ApiModel.h_at h)), path, (snd (ApiModel.h_at h)). split; [exact M|]. split; [exact P|]. split; [exact C|].
  intros v at_path V Q on p new g heads line peer bd id I. rewrite (serve_is _ _ _ _ _ _ _ _ _ _ _ _ id I).
  destruct (started_setup _ _ _ _ St) as (b' & E). symmetry in E. destruct (C89_served valid clash resolve b' asked health c sv r0 (Some r) E S Rg) as (r' & [= <-] & K).
  apply In_nth_error in Ih as (j & J). destruct (K j h v at_path J V Q) as [X _]. unfold answer_by, given. cbn [q_rest]. rewrite X, J, Nh. reflexivity.
Qed.
(** Whatever else is answered is not found, at a path without a route, or not allowed, at a path with
    one, or comes from the health check, which an
    application can turn off, or, for a document with WebSocket handlers, from the WebSocket route: no
    code runs but that of a handler that the document declares for the API, and only for its own
    path and method, or for HEAD at a path for GET. *)
Theorem C162_only : forall m asked health c r, running m asked health c r -> exists api, declares_api m asked api /\
  forall on p new g heads line peer v at_path b id, has_id heads g id ->
  let q := given heads line peer id v at_path b in
  let a := fst (serve c r (http_handlers c) on p new g heads line peer v at_path b) in
  (a = not_found /\ resolve (map rt_path r) at_path = None) \/ (a = not_allowed /\ resolve (map rt_path r) at_path <> None) \/
  (a = fst (health_check q) /\ health = false /\ (v = Get \/ v = Head) /\ resolve (map rt_path r) at_path = Some (chars "/runtime/health/check")) \/
  (a = fst (web_socket q) /\ (v = Get \/ v = Head) /\ resolve (map rt_path r) at_path = Some (chars "/") /\ exists api' n d, declares_api m asked api' /\ handler_of m api' (chars "celerity.handler.websocket") n d) \/
  exists n d method path route, a = fst (code n q) /\ handler_of m api (chars "celerity.handler.http") n d /\
    annotation_text d (chars "celerity.handler.http.method") (chars "GET") method /\ (names method v \/ (v = Head /\ names method Get)) /\
    annotation_text d (chars "celerity.handler.http.path") (chars "/") path /\ converted path route /\ resolve (map rt_path r) at_path = Some route.
Proof.
  intros m asked health c r [Hm (b & sv & r0 & L & St & S & Rg)]. destruct (C135_http _ _ _ _ _ _ Hk m b asked health _ c Hm L St eq_refl) as (api & D & H1 & _ & _).
  destruct (C135_websocket _ _ _ _ _ _ Hk m b asked health _ c Hm L St eq_refl) as (api' & D' & W & _ & _). destruct (started_setup _ _ _ _ St) as (b' & E). symmetry in E.
  exists api. split; [exact D|]. intros on p new g heads line peer v at_path bd id I. cbn zeta. rewrite (serve_is _ _ _ _ _ _ _ _ _ _ _ _ id I). unfold answer_by, given. cbn [q_rest].
  destruct (dispatch resolve r v at_path) as [[| |j]| |] eqn:X.
  4:{ right. left. split; [reflexivity|]. intros Z. unfold dispatch in X. rewrite Z in X. discriminate. }
  4:{ left. split; [reflexivity|]. unfold dispatch in X. destruct (resolve (map rt_path r) at_path) as [pp|]; [|reflexivity]. destruct (find_route r pp v); [discriminate|]. destruct v; try discriminate. now destruct (find_route r pp Get). }
  - pose proof (C89_only valid clash resolve b' asked health c sv r0 r v at_path _ E S Rg X) as (V & H & Q). right. right. left. auto.
  - pose proof (C89_only valid clash resolve b' asked health c sv r0 r v at_path _ E S Rg X) as (V & N & Q). right. right. right. left. split; [reflexivity|]. split; [exact V|]. split; [exact Q|].
    destruct (ws_handlers c) as [|hw ws] eqn:WS; [congruence|]. destruct (W hw (or_introl eq_refl)) as (dw & Hw & _). eauto.
  - pose proof (C89_only valid clash resolve b' asked health c sv r0 r v at_path _ E S Rg X) as (h & J & Q & V). rewrite J. right. right. right. right. destruct (H1 h (nth_error_In _ _ J)) as (d & path & Hd & M & P & C).
    exists (ApiModel.h_handler h), d, (fst (ApiModel.h_at h)), path, (snd (ApiModel.h_at h)). auto 10.
Qed.
(** What is said here of an application holds in the same words if its document is written in JSON, for
    a portable document (C149) that loads in both formats. *)
Theorem C162_json : forall json_text of_int m b bj asked health c r, one_each (YMap m) -> portable json_text (YMap m) -> (forall v, In (Some (chars "metadata"), v) m -> not_array v) ->
  load [YMap m] = Ok b -> load_json F parse_f64 k json_text of_int env (YMap m) = Ok bj -> (running_json F parse_f64 k env show_i show_f valid clash json_text of_int m asked health c r <-> running m asked health c r).
Proof.
  intros json_text of_int m b bj asked health c r O P NM L LJ. pose proof (C149_same F parse_f64 k Hk json_text of_int env show_i show_f m bj b P NM LJ L) as S. split.
  - intros (b' & sv & r0 & LJ' & St & Rs). replace b' with bj in St by congruence. constructor; [exact O|]. exists b, sv, r0. split; [exact L|]. split; [now apply S|exact Rs].
  - intros [_ (b' & sv & r0 & L' & St & Rs)]. replace b' with b in St by congruence. exists bj, sv, r0. split; [exact LJ|]. split; [now apply S|exact Rs].
Qed.
(** Where lines and spans come out, a request has a span exactly if the document turns tracing on for
    the API; it is logged as received and answered in any case. *)
Theorem C162_traced : forall m asked health c r, running m asked health c r -> exists api o, declares_api m asked api /\ spec_field api (chars "tracingEnabled") bool_of o /\
  forall p new g heads line peer v at_path b, let x := serve c r (http_handlers c) true p new g heads line peer v at_path b in
    (In (Opened line) (snd x) <-> o = Some true) /\ In Received (snd x) /\ In (Processed (status (fst x))) (snd x).
Proof.
  intros m asked health c r [Hm (b & sv & r0 & L & St & S & Rg)]. destruct (C135_api_tracing _ _ _ _ _ _ Hk m b asked health _ c Hm L St eq_refl) as (api & o & D & O & T).
  exists api, o. split; [exact D|]. split; [exact O|]. intros p new g heads line peer v at_path bd. cbn zeta. rewrite <- T. unfold ServeModel.serve.
  set (h := answer_by _ _ _ _ _ _ _ _ _ _). 
  pose proof (C159_logged _ R status rejected (ApiModel.ac_tracing c) p new g h heads line peer (v, at_path, bd) None _ (id_has heads g)) as [Lg _].
  destruct (server _ R status rejected (ApiModel.ac_tracing c) true p new g h _ None) as [a es] eqn:SV. destruct (Lg a es eq_refl) as (bf & -> & _ & _ & _ & NB). cbn [fst snd]. split.
  - destruct (ApiModel.ac_tracing c) eqn:AT.
    + split; [reflexivity|]. intros _. destruct (C160_fields _ R status rejected p new g h heads line peer (v, at_path, bd) None _ _ (id_has heads g) (agent_names heads)) as [(es' & Z & _) _].
      rewrite SV in Z. cbn [snd] in Z. rewrite Z. now left.
    + split; [|discriminate]. rewrite (NB eq_refl). intros I. exfalso. cbn [app In] in I. destruct I as [I|I]; [discriminate|]. apply in_app_iff in I as [I|[I|[]]]; [apply in_map_iff in I as (t & I & _)|]; discriminate.
  - rewrite !in_app_iff. cbn. tauto.
Qed.
End Params.

From Verif Require Import WfYamlProps SpecYamlProps SpecJsonProps FormatProps.
(** The shop of C135: both handlers answer, and so does the health check. *)
Definition by_name (n : text) (q : http_request nat) : N * list text := match n with 97%N :: _ => (201%N, []) | _ => (200%N, []) end.
Definition same_path (ps : list text) (p : text) : option text := find (text_eqb p) ps.
Example C162_nonvacuous : exists c r, running Z tenths ascii_classes switched_on number_text number_text (fun _ => true) (fun _ _ => false) (shop []) (Some (chars "shop")) false c r /\
  let ask v path := serve same_path nat N (fun r => r) 500%N 404%N 405%N (fun _ => (204%N, [])) (fun _ => (101%N, [])) by_name c r (http_handlers c) true OnAWS 7%N (chars "new") [] (chars "line") (chars "10.0.0.7") v path 0 in
  fst (ask Get (chars "/orders/:id")) = 200%N /\ fst (ask Post (chars "/")) = 201%N /\ fst (ask Head (chars "/orders/:id")) = 200%N /\ fst (ask Get (chars "/runtime/health/check")) = 204%N /\ fst (ask Put (chars "/")) = 405%N /\ fst (ask Get (chars "/none")) = 404%N /\
  In (Opened (chars "line")) (snd (ask Post (chars "/"))).
Proof.
  eexists. eexists. split.
  - constructor; [apply once_sound; vm_compute; reflexivity|]. eexists. eexists. eexists. split; [vm_compute; reflexivity|]. split; [apply started_is; vm_compute; reflexivity|]. split; vm_compute; reflexivity.
  - vm_compute. repeat split. now left.
Qed.
Example C162_json_nonvacuous : exists b bj c r, let m := mixed (YBool true) in one_each (YMap m) /\ portable no_json (YMap m) /\ (forall v, In (Some (chars "metadata"), v) m -> not_array v) /\
  LoadModel.load Z tenths ascii_classes switched_on [YMap m] = Ok b /\ load_json Z tenths ascii_classes no_json (fun z => z) switched_on (YMap m) = Ok bj /\
  running_json Z tenths ascii_classes switched_on number_text number_text (fun _ => true) (fun _ _ => false) no_json (fun z => z) m (Some (chars "shop")) false c r /\ length (http_handlers c) = 2.
Proof.
  destruct C149_nonvacuous as (P & NM & _). eexists. eexists. eexists. eexists. cbn zeta. split; [apply once_sound; vm_compute; reflexivity|]. split; [exact P|]. split; [exact NM|].
  split; [vm_compute; reflexivity|]. split; [vm_compute; reflexivity|]. split.
  - eexists. eexists. eexists. split; [vm_compute; reflexivity|]. split; [apply started_is; vm_compute; reflexivity|]. split; vm_compute; reflexivity.
  - reflexivity.
Qed.

Print Assumptions C162_answered.
Print Assumptions C162_only.
Print Assumptions C162_json.
Print Assumptions C162_traced.
