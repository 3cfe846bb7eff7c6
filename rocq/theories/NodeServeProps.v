(** C163: from the blueprint document to the answer of an application of the Node SDK *)
From Verif Require Import Base Chars SubstModel SubstProps ResolveModel ResolveSpec BlueprintModel WfYamlModel WfYamlSpec LoadModel.
From Verif Require ApiModel SdkModel SdkSpec SdkProofs SdkProps.
From Verif Require Import ApiSpec SetupModel SetupSpec SetupProps IdModel IdSpec RouteModel RouteSpec TraceModel TraceProps ServeModel ServeSpec ServeProps NodeServeModel NodeServeSpec.
Local Open Scope list_scope.

Section Params.
Variable F : Type.
Variable parse_f64 : text -> option F.
Variable k : classes.
Variable env : text -> option text.
Variable show_i : Z -> text.
Variable show_f : F -> text.
Hypothesis Hk : sane k.
Notation annotation_text := (annotation_text F parse_f64 k env show_i show_f).
Notation handler_of := (handler_of F parse_f64 k env).
Variable valid : text -> bool.
Variable clash : text -> text -> bool.
Variable resolve : list text -> text -> option text.
Variable name_ok value_ok : text -> bool.
Variable error_json : text -> text.
Variable status : outcome unit SdkModel.reply -> N.
Variable rejected not_found not_allowed : outcome unit SdkModel.reply.
Variable health_check web_socket : http_request (text * SdkModel.source) -> outcome unit SdkModel.reply * list text.
Variable function : text -> SdkModel.js_request -> SdkModel.js_call.
Variable tie : text -> http_request (text * SdkModel.source) -> bool.
Notation serve := (serve resolve _ _ status rejected not_found not_allowed health_check web_socket (node_code name_ok value_ok error_json function tie)).
(** N 266-285: no API is asked for, and there is no health check of its own *)
Notation running m := (running F parse_f64 k env show_i show_f valid clash m None false).
Notation sent := (sent name_ok value_ok error_json).

Lemma the_request_is heads line peer id v path uri b : the_request v uri heads b (axum_request (given _ heads line peer id v path (uri, b))).
Proof.
  unfold the_request, axum_request, given. cbn. split; [|split]; [| |auto].
  - destruct v; apply RouteProofs.lower_iff; vm_compute; reflexivity.
  - destruct v; cbn; intros c H; repeat destruct H as [<-|H]; try contradiction; lia.
Qed.
Lemma sent_is r : sent r (SdkModel.answer name_ok value_ok error_json r).
Proof.
  destruct r as [r|m].
  - destruct (SdkProofs.into_response_cases name_ok value_ok r) as [(p & H)|H].
    + cbn [SdkModel.answer]. rewrite H. apply SdkProofs.into_response_iff in H as [S C]. now constructor.
    + cbn [SdkModel.answer]. rewrite H. constructor. intros S.
      revert H. unfold SdkModel.into_response. destruct S as [S1 S2].
      replace (forallb _ _) with true.
      * destruct (N.leb_spec 100 (SdkModel.rs_status r)), (N.ltb_spec (SdkModel.rs_status r) 1000); cbn; try discriminate; lia.
      * symmetry. apply forallb_forall. intros [a b] I. destruct (SdkModel.rs_headers r) as [hs|]; [|contradiction]. destruct (S2 hs a b eq_refl I) as [E1 E2]. cbn [fst snd]. now rewrite E1, E2.
  - constructor; reflexivity.
Qed.
Lemma code_is n heads line peer id v path uri b : exists rq res, the_request v uri heads b rq /\ SdkSpec.node_outcome (function n (SdkModel.from_axum_req rq)) res /\
  sent res (fst (node_code name_ok value_ok error_json function tie n (given _ heads line peer id v path (uri, b)))).
Proof.
  eexists. eexists. split; [apply (the_request_is heads line peer id v path uri b)|]. split; [apply SdkProps.C92_node; eexists; reflexivity|]. apply sent_is.
Qed.

(** A client whose request has the method and path of a handler that the document declares for the API
    is sent what the function registered for that handler comes to, given this very request. *)
Theorem C163_answered : forall m c r, running m c r -> exists api, declares_api m None api /\
  forall n d, handler_of m api (chars "celerity.handler.http") n d -> exists method path route,
    annotation_text d (chars "celerity.handler.http.method") (chars "GET") method /\
    annotation_text d (chars "celerity.handler.http.path") (chars "/") path /\ converted path route /\
    forall v at_path, names method v -> resolve (map rt_path r) at_path = Some route ->
    forall on p new g heads line peer uri b, exists rq res, the_request v uri heads b rq /\ SdkSpec.node_outcome (function n (SdkModel.from_axum_req rq)) res /\
      sent res (fst (serve c r (http_handlers c) on p new g heads line peer v at_path (uri, b))).
Proof.
  intros m c r H. destruct (C162_answered _ _ _ _ _ _ Hk valid clash resolve _ _ status rejected not_found not_allowed health_check web_socket
    (node_code name_ok value_ok error_json function tie) m None false c r H) as (api & D & A).
  exists api. split; [exact D|]. intros n d Hd. destruct (A n d Hd) as (method & path & route & M & P & C & G). exists method, path, route. repeat (split; [assumption|]).
  intros v at_path V Q on p new g heads line peer uri b. rewrite (G v at_path V Q on p new g heads line peer (uri, b) _ (id_has heads g)). apply code_is.
Qed.
(** A response with a status from 100 to 999 and headers that HTTP has a form for, given within half a
    minute, is sent as it is. *)
Theorem C163_response : forall m c r, running m c r -> exists api, declares_api m None api /\
  forall n d, handler_of m api (chars "celerity.handler.http") n d -> exists method path route,
    annotation_text d (chars "celerity.handler.http.method") (chars "GET") method /\
    annotation_text d (chars "celerity.handler.http.path") (chars "/") path /\ converted path route /\
    forall v at_path, names method v -> resolve (map rt_path r) at_path = Some route ->
    forall on p new g heads line peer uri b, exists rq, the_request v uri heads b rq /\
      forall t x, function n (SdkModel.from_axum_req rq) = SdkModel.Promise (Some (t, SdkModel.Returned x)) -> (t < 30000)%N -> SdkSpec.sendable name_ok value_ok x ->
      exists a, fst (serve c r (http_handlers c) on p new g heads line peer v at_path (uri, b)) = Ok a /\ SdkSpec.carries x a.
Proof.
  intros m c r H. destruct (C163_answered m c r H) as (api & D & A). exists api. split; [exact D|]. intros n d Hd. destruct (A n d Hd) as (method & path & route & M & P & C & G).
  exists method, path, route. repeat (split; [assumption|]). intros v at_path V Q on p new g heads line peer uri b.
  destruct (G v at_path V Q on p new g heads line peer uri b) as (rq & res & R & O & S). exists rq. split; [exact R|]. intros t x E T X. rewrite E in O.
  inversion O; subst; [|lia]. inversion S; subst; [eauto|contradiction].
Qed.
(** Refuted, that a client learns of a failure from the status: a function that throws, rejects or takes
    longer than half a minute is answered as a success. *)
Theorem C163_failure_refuted : forall m c r, running m c r -> exists api, declares_api m None api /\
  forall n d, handler_of m api (chars "celerity.handler.http") n d -> exists method path route,
    annotation_text d (chars "celerity.handler.http.method") (chars "GET") method /\
    annotation_text d (chars "celerity.handler.http.path") (chars "/") path /\ converted path route /\
    forall v at_path, names method v -> resolve (map rt_path r) at_path = Some route ->
    forall on p new g heads line peer uri b, exists rq, the_request v uri heads b rq /\
      forall msg, (forall res, SdkSpec.node_outcome (function n (SdkModel.from_axum_req rq)) res -> res = SdkModel.Failed msg) ->
      exists a, fst (serve c r (http_handlers c) on p new g heads line peer v at_path (uri, b)) = Ok a /\ SdkModel.rp_status a = 200%N /\ SdkModel.rp_body a = error_json msg.
Proof.
  intros m c r H. destruct (C163_answered m c r H) as (api & D & A). exists api. split; [exact D|]. intros n d Hd. destruct (A n d Hd) as (method & path & route & M & P & C & G).
  exists method, path, route. repeat (split; [assumption|]). intros v at_path V Q on p new g heads line peer uri b.
  destruct (G v at_path V Q on p new g heads line peer uri b) as (rq & res & R & O & S). exists rq. split; [exact R|]. intros msg U. rewrite (U res O) in S. inversion S; subst. eauto.
Qed.
(** Whatever else a client gets does not come from a function: a path without a route, a method without
    one, the health check, or the WebSocket route. *)
Theorem C163_only : forall m c r, running m c r -> exists api, declares_api m None api /\
  forall on p new g heads line peer v at_path uri b,
  let a := fst (serve c r (http_handlers c) on p new g heads line peer v at_path (uri, b)) in
  a = not_found \/ a = not_allowed \/ (exists q, a = fst (health_check q)) \/ (exists q, a = fst (web_socket q)) \/
  exists n d method path route rq res, handler_of m api (chars "celerity.handler.http") n d /\
    annotation_text d (chars "celerity.handler.http.method") (chars "GET") method /\ (names method v \/ (v = Head /\ names method Get)) /\
    annotation_text d (chars "celerity.handler.http.path") (chars "/") path /\ converted path route /\ resolve (map rt_path r) at_path = Some route /\
    the_request v uri heads b rq /\ SdkSpec.node_outcome (function n (SdkModel.from_axum_req rq)) res /\ sent res a.
Proof.
  intros m c r H. destruct (C162_only _ _ _ _ _ _ Hk valid clash resolve _ _ status rejected not_found not_allowed health_check web_socket
    (node_code name_ok value_ok error_json function tie) m None false c r H) as (api & D & A).
  exists api. split; [exact D|]. intros on p new g heads line peer v at_path uri b. cbn zeta.
  destruct (A on p new g heads line peer v at_path (uri, b) _ (id_has heads g)) as [[E _]|[[E _]|[[E _]|[[E _]|(n & d & method & path & route & E & Hd & M & V & P & C & Q)]]]].
  - auto.
  - auto.
  - right. right. left. eauto.
  - right. right. right. left. eauto.
  - right. right. right. right. destruct (code_is n heads line peer (request_id heads g) v at_path uri b) as (rq & res & R & O & S). exists n, d, method, path, route, rq, res.
    rewrite E. auto 12.
Qed.
End Params.

From Verif Require Import WfYamlProps SpecYamlProps.
(** The shop of C135 with two functions: one answers, the other never does. *)
Definition functions (n : text) (q : SdkModel.js_request) : SdkModel.js_call :=
  match n with 97%N :: _ => SdkModel.Promise (Some (12%N, SdkModel.Returned (SdkModel.mk_response 201 (Some [(chars "X-Seen", SdkModel.js_uri q)]) (Some (SdkModel.js_method q))))) | _ => SdkModel.Promise None end.
Example C163_nonvacuous : exists c r, ServeSpec.running Z tenths ascii_classes switched_on number_text number_text (fun _ => true) (fun _ _ => false) (shop []) None false c r /\
  let ask v path := ServeModel.serve same_path _ _ (fun _ => 200%N) Panic (Err tt) (Err tt) (fun _ => (Err tt, [])) (fun _ => (Err tt, [])) (node_code (fun _ => true) (fun _ => true) (fun m => m) functions (fun _ _ => true))
    c r (http_handlers c) true OnLocal 7%N (chars "new") [] (chars "line") (chars "10.0.0.7") v path (chars "/?a=b", SdkModel.Whole []) in
  fst (ask Post (chars "/")) = Ok (SdkModel.mk_reply 201 [(chars "x-seen", chars "/?a=b")] (chars "POST")) /\
  exists a, fst (ask Get (chars "/orders/:id")) = Ok a /\ SdkModel.rp_status a = 200%N /\ SdkModel.rp_body a = chars "handler timed out".
Proof.
  eexists. eexists. split.
  - constructor; [apply once_sound; vm_compute; reflexivity|]. eexists. eexists. eexists. split; [vm_compute; reflexivity|]. split; [apply started_is; vm_compute; reflexivity|]. split; vm_compute; reflexivity.
  - cbn zeta. split; [vm_compute; reflexivity|]. eexists. split; [vm_compute; reflexivity|]. split; reflexivity.
Qed.

Print Assumptions C163_answered.
Print Assumptions C163_response.
Print Assumptions C163_failure_refuted.
Print Assumptions C163_only.
