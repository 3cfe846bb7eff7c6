(** Theorems on registration, routing and the life of an application: C89-C91 *)
From Verif Require Import Base Chars RouteModel RouteSpec RouteProofs.
From Verif Require ApiModel ApiSpec EnvModel EnvSpec.
Local Open Scope list_scope.

Section Router.
Variable valid : text -> bool.
Variable clash : text -> text -> bool.
Variable resolve : list text -> text -> option text.

(** C89: once all declared handlers have been registered, a request goes to the handler with the
    matching path and method. *)
Theorem C89_served b name health c sv r0 o :
  ApiModel.setup b name health = Ok (ApiModel.mk_app (Some c) (Some sv)) -> setup_routes valid clash sv = Ok r0 -> register_all valid clash (Some r0) (ApiSpec.http_handlers c) 0 = Ok o ->
  exists r, o = Some r /\
    forall k h v path, nth_error (ApiSpec.http_handlers c) k = Some h -> names (handler_method h) v -> resolve (map rt_path r) path = Some (handler_path h) ->
      dispatch resolve r v path = Called (User k) /\
      (v = Get -> (forall k' h', nth_error (ApiSpec.http_handlers c) k' = Some h' -> handler_path h' = handler_path h -> ~ names (handler_method h') Head) -> dispatch resolve r Head path = Called (User k)).
Proof.
  intros _ S R. pose proof (setup_routes_uniq _ _ _ _ S) as U. apply register_all_ok in R; [|exact U]. destruct R as (-> & UU). eexists. split; [reflexivity|].
  intros k h v path N M P. set (r := r0 ++ news (ApiSpec.http_handlers c) 0) in *.
  assert (X : In (mk_route (handler_path h) v (User k)) r). { apply in_app_iff. right. apply news_in. exists k, h. auto. }
  pose proof (find_route_uniq _ _ UU X) as F. cbn in F. unfold dispatch. rewrite P, F. split; [reflexivity|]. intros -> L.
  destruct (find_route r (handler_path h) Head) as [y|] eqn:G; [|rewrite F; reflexivity]. exfalso. apply find_route_in in G. destruct G as (G & Y1 & Y2). apply in_app_iff in G. destruct G as [G|G].
  - apply (setup_routes_to _ _ _ _ _ S) in G. destruct G as (G & _). congruence.
  - apply news_in in G. destruct G as (j & h' & G1 & G2 & G3 & _). rewrite Y2 in G2. apply (L j h' G1); [congruence|exact G2].
Qed.
(** C89: no request reaches another handler, and none reaches a handler at another path or method. *)
Theorem C89_only b name health c sv r0 r v path t :
  ApiModel.setup b name health = Ok (ApiModel.mk_app (Some c) (Some sv)) -> setup_routes valid clash sv = Ok r0 -> register_all valid clash (Some r0) (ApiSpec.http_handlers c) 0 = Ok (Some r) ->
  dispatch resolve r v path = Called t ->
  match t with
  | User k => exists h, nth_error (ApiSpec.http_handlers c) k = Some h /\ resolve (map rt_path r) path = Some (handler_path h) /\ (names (handler_method h) v \/ (v = Head /\ names (handler_method h) Get))
  | Health => (v = Get \/ v = Head) /\ health = false /\ resolve (map rt_path r) path = Some (chars "/runtime/health/check")
  | WebSocket => (v = Get \/ v = Head) /\ ApiSpec.ws_handlers c <> [] /\ resolve (map rt_path r) path = Some (chars "/")
  end.
Proof.
  intros A S R D. pose proof (setup_routes_uniq _ _ _ _ S) as U. apply register_all_ok in R; [|exact U]. destruct R as ([= ->] & UU). apply dispatch_called in D. destruct D as (x & X & T & P & V).
  apply in_app_iff in X. destruct X as [X|X].
  - assert (W : rt_verb x = Get) by (eapply setup_routes_to; eauto).
    assert (VV : v = Get \/ v = Head) by (destruct V as [<-|(-> & _)]; auto).
    unfold setup_routes in S. assert (HX : rt_to x = Health /\ rt_path x = health_path /\ ApiModel.sv_health sv = true \/ exists p k rs, rt_to x = WebSocket /\ rt_path x = p /\ ApiModel.sv_ws sv = Some (p, k, rs)).
    { destruct (ApiModel.sv_health sv); cbn [obind] in S.
      - destruct (add_route valid clash [] health_path Get Health) as [r1|?|] eqn:A1; cbn [obind] in S; try discriminate. apply add_route_iff in A1. destruct A1 as (_ & ->).
        destruct (ApiModel.sv_ws sv) as [[[p k] rs]|].
        + apply add_route_iff in S. destruct S as (_ & ->). destruct X as [<-|[<-|[]]]; [auto|]. right. exists p, k, rs. auto.
        + injection S as <-. destruct X as [<-|[]]. auto.
      - destruct (ApiModel.sv_ws sv) as [[[p k] rs]|].
        + apply add_route_iff in S. destruct S as (_ & ->). destruct X as [<-|[]]. right. exists p, k, rs. auto.
        + injection S as <-. destruct X. }
    assert (SV : ApiModel.setup_server c health = Ok sv).
    { unfold ApiModel.setup in A. destruct (ApiModel.collect_api_config b name) as [c0|[|]|]; try discriminate. destruct (ApiModel.setup_server c0 health) eqn:E; try discriminate. injection A as -> ->. exact E. }
    assert (NB : forall hs ps key, ApiModel.ac_ws c = Some (hs, ps, key) -> ps = [] /\ hs <> []).
    { unfold ApiModel.setup in A. destruct (ApiModel.collect_api_config b name) as [c0|[|]|] eqn:CC; try discriminate. destruct (ApiModel.setup_server c0 health); try discriminate. injection A as -> ->.
      unfold ApiModel.collect_api_config in CC. destruct (ApiModel.get_api b name); [|discriminate]. destruct (ApiModel.collect_http _ _ _) as [[h1 h2]|?|]; try discriminate. destruct (ApiModel.collect_ws _ _ _ _) as [[w1 w2]|?|]; try discriminate. injection CC as <-.
      cbn. intros hs ps key. destruct w1; cbn; [discriminate|]. intros [= <- <- <-]. split; [reflexivity|discriminate]. }
    unfold ApiModel.setup_server in SV. destruct HX as [(E & Q & H)|(p & k & rs & E & Q & H)]; rewrite E in T; subst t; rewrite Q in P.
    + split; [exact VV|]. split; [|exact P]. destruct (ApiModel.ac_ws c) as [[[hs ps] key]|]; [destruct (ApiModel.websocket_base_path c ps); try discriminate|]; injection SV as <-; cbn in H; destruct health; (discriminate H || reflexivity).
    + split; [exact VV|]. unfold ApiSpec.ws_handlers. destruct (ApiModel.ac_ws c) as [[[hs ps] key]|]; [|injection SV as <-; discriminate]. destruct (NB _ _ _ eq_refl) as (-> & NE). unfold ApiModel.websocket_base_path in SV.
      destruct (ApiModel.ac_http c); [discriminate|]. injection SV as <-. cbn in H. injection H as <- <- <-. split; [exact NE|exact P].
  - apply news_in in X. destruct X as (j & h & N & M & Q & E). rewrite E in T. subst t. cbn. exists h. split; [exact N|]. split; [congruence|]. destruct V as [<-|(-> & <-)]; auto.
Qed.
(** C89: when registering all handlers succeeds. *)
Theorem C89_accepted r0 hs : (exists o, register_all valid clash (Some r0) hs 0 = Ok o) <->
  (forall k h v, nth_error hs k = Some h -> names (handler_method h) v -> addable valid clash (occupied r0 hs k) (handler_path h) v).
Proof. apply register_all_iff. Qed.
(** C89, refuted: a handler with an unknown method is accepted but never reached. *)
Theorem C89_method_refuted b name health c sv r0 r k h :
  ApiModel.setup b name health = Ok (ApiModel.mk_app (Some c) (Some sv)) -> setup_routes valid clash sv = Ok r0 -> register_all valid clash (Some r0) (ApiSpec.http_handlers c) 0 = Ok (Some r) ->
  nth_error (ApiSpec.http_handlers c) k = Some h -> (forall v, ~ names (handler_method h) v) -> forall v path, dispatch resolve r v path <> Called (User k).
Proof.
  intros A S R N M v path D. pose proof (C89_only _ _ _ _ _ _ _ _ _ _ A S R D) as (h' & N' & _ & [X|(_ & X)]); rewrite N in N'; injection N' as <-; exact (M _ X).
Qed.
(** C89, refuted: two handlers with the same path and method, or one at the path of the runtime's
    own health check, crash the application when they are registered. *)
Theorem C89_duplicate_refuted r0 hs i j h h' v : i < j -> nth_error hs i = Some h -> nth_error hs j = Some h' -> handler_path h = handler_path h' -> names (handler_method h) v -> names (handler_method h') v ->
  register_all valid clash (Some r0) hs 0 = Panic.
Proof.
  intros L N N' P M M'. destruct (register_all_cases valid clash hs r0 0) as [(o & H)|H]; [|exact H]. exfalso.
  destruct (proj1 (register_all_iff valid clash hs r0 0) (ex_intro _ o H) j h' v N' M') as (_ & _ & X & _). apply X. right. exists i, h. auto.
Qed.
Theorem C89_health_refuted b name c sv r0 k h :
  ApiModel.setup b name false = Ok (ApiModel.mk_app (Some c) (Some sv)) -> setup_routes valid clash sv = Ok r0 ->
  nth_error (ApiSpec.http_handlers c) k = Some h -> names (handler_method h) Get -> handler_path h = chars "/runtime/health/check" -> register_all valid clash (Some r0) (ApiSpec.http_handlers c) 0 = Panic.
Proof.
  intros A S N M P. assert (SH : ApiModel.sv_health sv = true).
  { unfold ApiModel.setup in A. destruct (ApiModel.collect_api_config b name) as [c0|[|]|]; try discriminate. unfold ApiModel.setup_server in A. destruct (ApiModel.ac_ws c0) as [[[hs ps] key]|]; [destruct (ApiModel.websocket_base_path c0 ps); try discriminate|]; injection A as <- <-; reflexivity. }
  destruct (register_all_cases valid clash (ApiSpec.http_handlers c) r0 0) as [(o & H)|H]; [|exact H]. exfalso.
  destruct (proj1 (register_all_iff valid clash _ r0 0) (ex_intro _ o H) k h Get N M) as (_ & _ & X & _). apply X. left. exists Health.
  unfold setup_routes in S. rewrite SH in S. destruct (add_route valid clash [] health_path Get Health) as [r1|?|] eqn:A1; cbn [obind] in S; try discriminate. apply add_route_iff in A1. destruct A1 as (_ & ->). rewrite P.
  destruct (ApiModel.sv_ws sv) as [[[p ky] rs]|]; [apply add_route_iff in S; destruct S as (_ & ->)|injection S as <-]; left; reflexivity.
Qed.

(** C90: handlers registered between a setup and a run are served by the server that the run
    starts. *)
Definition is_register (a : act) : Prop := match a with Register _ _ _ => True | _ => False end.
Lemma regs_routes regs : forall l l', Forall is_register regs -> steps valid clash l regs = Ok l' ->
  lf_tasks l' = lf_tasks l /\ lf_signal l' = lf_signal l /\ lf_local_signal l' = lf_local_signal l /\ lf_local l' = lf_local l /\
  match lf_routes l with
  | None => lf_routes l' = None
  | Some r => exists r', lf_routes l' = Some (r ++ r') /\ forall p v t, In (mk_route p v t) r' <-> exists m, In (Register p m t) regs /\ names m v
  end.
Proof.
  induction regs as [|a regs IH]; intros l l' F; cbn [steps].
  - intros [= <-]. repeat split; try reflexivity. destruct (lf_routes l) as [r|]; [|reflexivity]. exists []. rewrite app_nil_r. split; [reflexivity|]. intros p v t. split; [intros []|intros (m & [] & _)].
  - apply Forall_cons_iff in F. destruct F as (Fa & F). destruct a as [| p m t| | | |]; try contradiction. cbn [step]. destruct (lf_routes l) as [r|] eqn:LR; cbn [register obind].
    + destruct (verb_of m) as [v|] eqn:V.
      * destruct (add_route valid clash r p v t) as [r1|?|] eqn:A; cbn [omap obind]; try discriminate. intros H. specialize (IH _ _ F H). cbn in IH. destruct IH as (T & SG & SL & LL & r' & E & IN). apply add_route_iff in A. destruct A as (_ & ->).
        repeat split; try assumption. exists (mk_route p v t :: r'). rewrite E, <- app_assoc. split; [reflexivity|]. intros q w u. cbn [In]. rewrite IN. split.
        -- intros [[= <- <- <-]|(m' & I & N)]; [exists m; split; [left; reflexivity|apply verb_of_iff, V]|eauto].
        -- intros (m' & [[= <- <- <-]|I] & N); [left; apply verb_of_iff in N; congruence|eauto].
      * intros H. specialize (IH _ _ F H). cbn in IH. destruct IH as (T & SG & SL & LL & r' & E & IN). repeat split; try assumption. exists r'. split; [exact E|]. intros q w u. rewrite IN. split.
        -- intros (m' & I & N). exists m'. cbn. auto.
        -- intros (m' & [[= <- <- <-]|I] & N); [apply verb_of_iff in N; congruence|eauto].
    + intros H. specialize (IH _ _ F H). cbn in IH. tauto.
Qed.
Theorem C90_served acts l sv lo regs b b' l' : steps valid clash new acts = Ok l -> Forall is_register regs -> steps valid clash l (Setup (Some sv) lo :: regs ++ [Run b b']) = Ok l' ->
  exists t r0, nth_error (lf_tasks l') (length (lf_tasks l)) = Some t /\ tk_told t = false /\ tk_alive t = true /\ setup_routes valid clash sv = Ok r0 /\
    exists r, tk_routes t = r0 ++ r /\ forall p v to, In (mk_route p v to) r <-> exists m, In (Register p m to) regs /\ names m v.
Proof.
  intros ACTS F. apply steps_inv in ACTS; [|exact new_kept]. destruct ACTS as (KEPT & _). change (Setup (Some sv) lo :: regs ++ [Run b b']) with ([Setup (Some sv) lo] ++ (regs ++ [Run b b'])). rewrite !steps_app. cbn [steps step]. destruct (setup_routes valid clash sv) as [r0|?|] eqn:S; cbn [omap obind]; try discriminate.
  rewrite steps_app. match goal with |- context[steps valid clash ?x regs] => destruct (steps valid clash x regs) as [l1|?|] eqn:R end; cbn [obind]; try discriminate. apply regs_routes in R; [|exact F]. cbn in R. destruct R as (T & SG & SL & LL & r & E & IN).
  cbn [steps step]. rewrite E, T, SG. destruct (start (Some (r0 ++ r)) (lf_signal l) (lf_tasks l) b) as [[s1 t1]|?|] eqn:S1; cbn [obind]; try discriminate. apply start_ok in S1. destruct S1 as [(X & _)|(x & X & -> & ->)]; [discriminate|]. injection X as <-.
  match goal with |- context[start ?a ?s ?ts b'] => destruct (start a s ts b') as [[s2 t2]|?|] eqn:S2 end; cbn [obind]; try discriminate. intros [= <-]. cbn [lf_tasks].
  exists (mk_task (r0 ++ r) false true), r0. split; [|split; [reflexivity|split; [reflexivity|split; [reflexivity|exists r; split; [reflexivity|exact IN]]]]].
  assert (N1 : nth_error (on_task tell (lf_signal l) (lf_tasks l) ++ [mk_task (r0 ++ r) false true]) (length (lf_tasks l)) = Some (mk_task (r0 ++ r) false true)).
  { rewrite nth_error_app2 by (rewrite on_task_length; lia). rewrite on_task_length, Nat.sub_diag. reflexivity. }
  apply start_ok in S2. destruct S2 as [(_ & _ & ->)|(y & _ & _ & ->)]; [exact N1|].
  rewrite nth_error_app1 by (rewrite on_task_length, app_length, on_task_length; cbn; lia). rewrite on_task_nth, N1, SL. destruct (lf_local_signal l) as [i|] eqn:LS; [|reflexivity].
  destruct (Nat.eqb_spec (length (lf_tasks l)) i) as [<-|D]; [|reflexivity]. exfalso. destruct KEPT as (_ & K2 & _). destruct (K2 _ (or_intror LS)) as (t & N & _). apply nth_lt in N. lia.
Qed.
(** C90: a setup that finds no API keeps the handlers: a server started next serves them. *)
Theorem C90_kept l lo r b b' l' : lf_routes l = Some r -> steps valid clash l [Setup None lo; Run b b'] = Ok l' -> exists t, nth_error (lf_tasks l') (length (lf_tasks l)) = Some t /\ tk_routes t = r.
Proof.
  intros R. cbn [steps step obind lf_routes lf_local lf_signal lf_local_signal lf_tasks]. rewrite R. destruct (start (Some r) (lf_signal l) (lf_tasks l) b) as [[s1 t1]|?|] eqn:S1; cbn [obind]; try discriminate. apply start_ok in S1. destruct S1 as [(X & _)|(x & X & -> & ->)]; [discriminate|]. injection X as <-.
  match goal with |- context[start ?a ?s ?ts b'] => destruct (start a s ts b') as [[s2 t2]|?|] eqn:S2 end; cbn [obind]; try discriminate. intros [= <-]. cbn [lf_tasks].
  assert (N1 : nth_error (on_task tell (lf_signal l) (lf_tasks l) ++ [mk_task r false true]) (length (lf_tasks l)) = Some (mk_task r false true)).
  { rewrite nth_error_app2 by (rewrite on_task_length; lia). rewrite on_task_length, Nat.sub_diag. reflexivity. }
  apply start_ok in S2. destruct S2 as [(_ & _ & ->)|(y & _ & _ & ->)]; [eexists; split; [exact N1|reflexivity]|].
  rewrite nth_error_app1 by (rewrite on_task_length, app_length, on_task_length; cbn; lia). rewrite on_task_nth, N1. destruct (lf_local_signal l) as [i|]; [|eexists; split; reflexivity].
  destruct (Nat.eqb (length (lf_tasks l)) i); eexists; split; reflexivity.
Qed.
(** C90, refuted: handlers registered before the setup are forgotten, without a failure. *)
Theorem C90_before_refuted regs : Forall is_register regs -> steps valid clash new regs = Ok new.
Proof.
  induction regs as [|a regs IH]; intros F; [reflexivity|]. apply Forall_cons_iff in F. destruct F as (Fa & F). destruct a as [|p m t| | | |]; try contradiction. cbn [steps step]. cbn [register lf_routes new obind]. apply IH, F.
Qed.
(** C90, refuted: handlers registered while a server runs do not reach it. *)
Theorem C90_after_refuted regs l l' : Forall is_register regs -> steps valid clash l regs = Ok l' -> lf_tasks l' = lf_tasks l.
Proof. intros F H. eapply regs_routes; eauto. Qed.
(** C90, refuted: a second setup forgets every handler registered before it. *)
Theorem C90_again_refuted l sv lo l' : step valid clash l (Setup (Some sv) lo) = Ok l' -> exists r, lf_routes l' = Some r /\ forall x k, In x r -> rt_to x <> User k.
Proof.
  cbn [step]. destruct (setup_routes valid clash sv) as [r|?|] eqn:S; cbn [omap obind]; try discriminate. intros [= <-]. exists r. split; [reflexivity|]. intros x k I. apply (setup_routes_to _ _ _ _ _ S) in I. destruct I as (_ & [-> | ->]); discriminate.
Qed.

(** C91: after a shutdown every server that was ever started has been told to stop. *)
Theorem C91_stopped acts l l' : steps valid clash new acts = Ok l -> step valid clash l Shutdown = Ok l' -> forall t, In t (lf_tasks l') -> tk_told t = true.
Proof.
  intros H S t I. apply steps_inv in H; [|exact new_kept]. destruct H as (K & _). pose proof (step_kept _ _ _ _ _ S K) as (K1 & _). apply In_nth_error in I. destruct I as (i & I). destruct (tk_told t) eqn:T; [reflexivity|]. exfalso.
  cbn [step] in S. destruct (stop (lf_signal l) (lf_tasks l)); cbn [obind] in S; try discriminate. destruct (stop _ _); cbn [obind] in S; try discriminate. injection S as <-. destruct (K1 i t I T) as [X|X]; discriminate.
Qed.
(** C91: while its asynchronous runtime lives, an application can be shut down at any moment; a
    second shutdown does nothing. *)
Theorem C91_any_time acts l : steps valid clash new acts = Ok l -> ~ In RuntimeGone acts -> exists l', step valid clash l Shutdown = Ok l' /\ step valid clash l' Shutdown = Ok l'.
Proof.
  intros H G. apply steps_inv in H; [|exact new_kept]. destruct H as (K & A). specialize (A G new_alive). destruct l as [R R' s o ts]. cbn [step lf_routes lf_local lf_signal lf_local_signal lf_tasks].
  destruct (stop_alive_ok _ _ _ _ _ K A) as (t1 & S1). rewrite S1. cbn [obind]. pose proof (stop_kept _ _ _ _ _ _ S1 K) as K'. assert (A' : alive (mk_life R R' None o t1)) by (refine (stop_alive _ _ _ _ _ _ _ S1 _); exact A).
  apply kept_swap in K'. destruct (stop_alive_ok _ _ _ _ _ K' A') as (t2 & S2). rewrite S2. cbn [obind]. eexists. split; [reflexivity|]. reflexivity.
Qed.
(** C91, refuted: once the runtime is gone, shutting down what was being served crashes. *)
Theorem C91_gone_refuted acts l t : steps valid clash new acts = Ok l -> serving l t -> steps valid clash l [RuntimeGone; Shutdown] = Panic.
Proof.
  intros H (I & T & _). apply steps_inv in H; [|exact new_kept]. destruct H as ((K1 & K2 & _) & _). apply In_nth_error in I. destruct I as (i & I). pose proof (K1 i t I T) as X. destruct l as [R R' s o ts]. cbn [steps step obind lf_routes lf_local lf_signal lf_local_signal lf_tasks] in *.
  assert (P : forall j, nth_error (map finish ts) j = match nth_error ts j with Some t => Some (finish t) | None => None end).
  { intros j. rewrite nth_error_map. destruct (nth_error ts j); reflexivity. }
  assert (Q : forall j, stop (Some j) (map finish ts) = Panic). { intros j. unfold stop. rewrite P. destruct (nth_error ts j); reflexivity. }
  destruct s as [j|]; [rewrite Q; reflexivity|]. destruct X as [X|X]; [discriminate|]. rewrite X. change (stop None (map finish ts)) with (@Ok unit _ (map finish ts)). cbn [obind]. rewrite Q. reflexivity.
Qed.
(** C91: nothing but a shutdown, a new run or the end of the runtime stops a server. *)
Theorem C91_keeps_serving l a l' t : step valid clash l a = Ok l' -> serving l t -> a <> Shutdown -> (forall b b', a <> Run b b') -> a <> RuntimeGone -> serving l' t.
Proof.
  intros S (I & T & A) N1 N2 N3. destruct a as [sv lo|p m to|b b'| |i|]; try congruence; cbn [step] in S.
  - destruct (match sv with Some _ => _ | None => _ end); cbn [obind] in S; try discriminate. injection S as <-. split; auto.
  - destruct (register _ _ _ _ _ _); cbn [obind] in S; try discriminate. injection S as <-. split; auto.
  - injection S as <-. split; [|auto]. cbn [lf_tasks]. apply In_nth_error in I. destruct I as (j & I). eapply nth_error_In with (n := j). rewrite ended_nth, I, T, andb_false_r. reflexivity.
Qed.
(** C91: a new run takes the place of the old one: there are never more than two servers, that of the
    API and the local one, that have not been told to stop. *)
Theorem C91_at_most_two acts l i j k t t' t'' : steps valid clash new acts = Ok l -> nth_error (lf_tasks l) i = Some t -> nth_error (lf_tasks l) j = Some t' -> nth_error (lf_tasks l) k = Some t'' ->
  tk_told t = false -> tk_told t' = false -> tk_told t'' = false -> i <> j -> j <> k -> i <> k -> False.
Proof.
  intros H A B C TA TB TC D1 D2 D3. apply steps_inv in H; [|exact new_kept]. destruct H as ((K1 & _) & _). destruct (K1 _ _ A TA) as [X|X], (K1 _ _ B TB) as [Y|Y], (K1 _ _ C TC) as [Z|Z]; congruence.
Qed.
End Router.

(** Examples *)
Definition ex_at m p := [(chars "celerity.handler.http", ApiModel.SBool true); (chars "celerity.handler.http.method", ApiModel.SStr (chars m)); (chars "celerity.handler.http.path", ApiModel.SStr (chars p))].
Definition ex_res m p := ApiModel.mk_resource ApiModel.THandler (Some [(chars "app", chars "orders")]) (Some (ex_at m p)) (ApiModel.SpHandler (ApiModel.mk_source (Some (chars "code")) None None)) None.
Definition ex_api := ApiModel.mk_resource ApiModel.TApi None None (ApiModel.SpApi [ApiModel.PHttp] None) (Some [(chars "app", chars "orders")]).
Definition ex_b rs := ApiModel.mk_blueprint ((chars "api", ex_api) :: rs) None.
Definition ex_app rs := match ApiModel.setup (ex_b rs) (Some (chars "api")) false with Ok (ApiModel.mk_app (Some c) (Some s)) => (c, s) | _ => (ApiModel.mk_api None None false, ApiModel.mk_server false None) end.
Definition ex_three := [(chars "a", ex_res "Get" "/orders/{id}"); (chars "b", ex_res "PUT" "/orders/{id}"); (chars "c", ex_res "CONNECT" "/orders")].
Definition ok_valid (_ : text) := true.
Definition ok_clash (_ _ : text) := false.
Definition ok_resolve (ps : list text) (p : text) := if existsb (text_eqb p) ps then Some p else if existsb (text_eqb (chars "/orders/:id")) ps && starts_with (chars "/orders/") p then Some (chars "/orders/:id") else None.
Definition ex_r := match setup_routes ok_valid ok_clash (snd (ex_app ex_three)) with Ok r0 => match register_all ok_valid ok_clash (Some r0) (ApiSpec.http_handlers (fst (ex_app ex_three))) 0 with Ok (Some r) => r | _ => [] end | _ => [] end.
Example C89_nonvacuous :
  ApiModel.setup (ex_b ex_three) (Some (chars "api")) false = Ok (ApiModel.mk_app (Some (fst (ex_app ex_three))) (Some (snd (ex_app ex_three))))
  /\ (exists r0, setup_routes ok_valid ok_clash (snd (ex_app ex_three)) = Ok r0 /\ register_all ok_valid ok_clash (Some r0) (ApiSpec.http_handlers (fst (ex_app ex_three))) 0 = Ok (Some ex_r))
  /\ map (fun q => dispatch ok_resolve ex_r (fst q) (chars (snd q)))
       [(Get, "/orders/7"); (Put, "/orders/7"); (Head, "/orders/7"); (Delete, "/orders/7"); (Get, "/orders"); (Get, "/runtime/health/check")]%string
     = [Called (User 0); Called (User 1); Called (User 0); NotAllowed; NotFound; Called Health].
Proof. vm_compute. split; [reflexivity|]. split; [eexists; split; reflexivity|reflexivity]. Qed.
Example C89_refuted_nonvacuous :
  register_all ok_valid ok_clash (Some []) (ApiSpec.http_handlers (fst (ex_app [(chars "a", ex_res "Get" "/x"); (chars "b", ex_res "GET" "/x")]))) 0 = Panic
  /\ (forall r0, setup_routes ok_valid ok_clash (snd (ex_app [(chars "h", ex_res "GET" "/runtime/health/check")])) = Ok r0 -> register_all ok_valid ok_clash (Some r0) (ApiSpec.http_handlers (fst (ex_app [(chars "h", ex_res "GET" "/runtime/health/check")]))) 0 = Panic)
  /\ (forall v, ~ names (chars "CONNECT") v).
Proof.
  split; [vm_compute; reflexivity|]. split.
  - intros r0 S. eapply (C89_health_refuted ok_valid ok_clash (ex_b [(chars "h", ex_res "GET" "/runtime/health/check")]) (Some (chars "api")) _ _ r0 0); [vm_compute; reflexivity|exact S|vm_compute; reflexivity| |vm_compute; reflexivity].
    apply verb_of_iff. vm_compute. reflexivity.
  - intros v H. apply verb_of_iff in H. vm_compute in H. discriminate.
Qed.
Definition ex_sv := ApiModel.mk_server true None.
Definition ex_regs := [Register (chars "/a") (chars "get") (User 0); Register (chars "/a") (chars "POST") (User 1); Register (chars "/b") (chars "link") (User 2)].
Definition ex_life acts := match steps ok_valid ok_clash new acts with Ok l => l | _ => new end.
Example C90_nonvacuous : Forall is_register ex_regs /\
  map (fun t => map rt_to (tk_routes t)) (lf_tasks (ex_life (Setup (Some ex_sv) None :: ex_regs ++ [Run true true]))) = [[Health; User 0; User 1]] /\
  map (fun t => map rt_to (tk_routes t)) (lf_tasks (ex_life (ex_regs ++ [Setup (Some ex_sv) None; Run true true]))) = [[Health]] /\
  map (fun t => map rt_to (tk_routes t)) (lf_tasks (ex_life ([Setup (Some ex_sv) None; Run true true] ++ ex_regs))) = [[Health]] /\
  map (fun t => map rt_to (tk_routes t)) (lf_tasks (ex_life (Setup (Some ex_sv) None :: ex_regs ++ [Setup None None; Run true true]))) = [[Health; User 0; User 1]].
Proof. split; [repeat constructor|]. vm_compute. auto. Qed.
Example C91_nonvacuous :
  let acts := [Setup (Some ex_sv) (Some []); Run true true; Run true true; Ended 0] in
  steps ok_valid ok_clash new acts = Ok (ex_life acts) /\ map (fun t => (tk_told t, tk_alive t)) (lf_tasks (ex_life acts)) = [(true, false); (true, true); (false, true); (false, true)]
  /\ map tk_told (lf_tasks (ex_life (acts ++ [Shutdown]))) = [true; true; true; true] /\ exists t, serving (ex_life acts) t.
Proof. vm_compute. split; [reflexivity|]. split; [reflexivity|]. split; [reflexivity|]. eexists. split; [right; right; left; reflexivity|auto]. Qed.
Print Assumptions C89_served.
Print Assumptions C89_only.
Print Assumptions C89_accepted.
Print Assumptions C89_method_refuted.
Print Assumptions C89_duplicate_refuted.
Print Assumptions C89_health_refuted.
Print Assumptions C90_served.
Print Assumptions C90_kept.
Print Assumptions C90_before_refuted.
Print Assumptions C90_after_refuted.
Print Assumptions C90_again_refuted.
Print Assumptions C91_stopped.
Print Assumptions C91_any_time.
Print Assumptions C91_gone_refuted.
Print Assumptions C91_keeps_serving.
Print Assumptions C91_at_most_two.
