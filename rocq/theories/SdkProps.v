(** Theorems on the SDKs: C92-C97 *)
From Verif Require Import Base Chars SdkModel SdkSpec SdkProofs.
From Verif Require ApiModel ApiSpec EnvModel EnvSpec RouteModel RouteSpec RouteProofs RouteProps ResolveSpec.
Local Open Scope list_scope.

Section Http.
Variable name_ok value_ok : text -> bool.
Variable error_json : text -> text.
Variable utf8 : bytes -> option text.
Notation answer := (answer name_ok value_ok error_json).

(** C92: a failure of a handler is always answered, with its message. *)
Theorem C92_message m : exists p, answer (Failed m) = Ok p /\ rp_body p = error_json m.
Proof. eexists. split; reflexivity. Qed.
(** C92: what a Node handler's call comes to. *)
Theorem C92_node c r : node_outcome c r <-> exists tie, node_result c tie = r.
Proof. apply node_iff. Qed.
(** C92, refuted: every failure - an exception, a time-out, an unknown handler - is answered with the
    status of success. *)
Theorem C92_status_refuted m p : answer (Failed m) = Ok p -> rp_status p = 200%N.
Proof. intros [= <-]. reflexivity. Qed.
Theorem C92_node_refuted c m : node_outcome c (Failed m) -> exists tie p, answer (node_result c tie) = Ok p /\ rp_status p = 200%N.
Proof. intros O. apply node_iff in O. destruct O as (tie & E). exists tie. rewrite E. eexists. split; reflexivity. Qed.

(** C93: a response is sent exactly when HTTP has a form for it, and then as it is. *)
Theorem C93_sent r p : answer (Returned r) = Ok p <-> sendable name_ok value_ok r /\ carries r p.
Proof. apply into_response_iff. Qed.
(** C93, refuted: any other response crashes the task of the request, and nothing is sent. *)
Theorem C93_crash_refuted r : ~ sendable name_ok value_ok r -> answer (Returned r) = Panic.
Proof.
  intros N. destruct (into_response_cases name_ok value_ok r) as [(p & H)|H]; [|exact H]. exfalso. apply N. apply into_response_iff in H. tauto.
Qed.
(** C93, refuted: through the C interface no header is ever sent. *)
Theorem C93_headers_refuted during later r fault p : ffi_call during later = (Returned r, fault) -> answer (Returned r) = Ok p -> rp_headers p = [].
Proof.
  intros H A. assert (E : rs_headers r = None).
  { unfold ffi_call in H. assert (I : forall x, fr_sent (fold_left ffi_do during ffi_new) = Some x -> rs_headers x = None).
    { assert (G : forall ops f, (forall x, fr_sent f = Some x -> rs_headers x = None) -> forall x, fr_sent (fold_left ffi_do ops f) = Some x -> rs_headers x = None).
      { induction ops as [|o ops IH]; intros f K; [exact K|]. cbn [fold_left]. apply IH. destruct o; cbn; try exact K. destruct (fr_sent f); [exact K|]. intros x [= <-]. reflexivity. }
      apply G. discriminate. }
    revert I H. generalize (fold_left ffi_do during ffi_new). intros f. revert f. induction later as [|[t o] later IH]; intros f I; cbn [ffi_later].
    - destruct (fr_sent f) as [x|] eqn:S; [|discriminate]. intros [= <- _]. exact (I x eq_refl).
    - destruct (fr_sent f) as [x|] eqn:S; [intros [= <- _]; exact (I x eq_refl)|]. destruct (t <? 30000)%N; [|discriminate]. apply IH. destruct o; cbn; rewrite S; try discriminate. intros x [= <-]. reflexivity. }
  apply C93_sent in A. destruct A as (_ & _ & _ & F). rewrite E in F. inversion F. reflexivity.
Qed.

(** C94: a Node handler sees the method and URI of its request. *)
Theorem C94_target r : js_method (from_axum_req r) = rq_method r /\ js_uri (from_axum_req r) = rq_uri r.
Proof. split; reflexivity. Qed.
(** C94: and its headers, if all are text. *)
Theorem C94_headers r : (exists m, js_headers (from_axum_req r) = Ok m) <-> (forall k v, In (k, v) (rq_headers r) -> textual v).
Proof.
  unfold js_headers. cbn [js_parts from_axum_req]. split; [intros (m & H); apply collect_ok in H; exact (proj1 H)|]. intros H. eexists. apply collect_ok. split; [exact H|reflexivity].
Qed.
Theorem C94_header r m k v : js_headers (from_axum_req r) = Ok m -> (get k m = Some v <-> last_of k v (rq_headers r)).
Proof. unfold js_headers. cbn [js_parts from_axum_req]. intros H. apply collect_ok in H. destruct H as (_ & ->). apply get_fold_last. Qed.
(** C94, refuted: of several headers with one name only the last is seen. *)
Theorem C94_header_refuted r m k v w a b : rq_headers r = a ++ (k, v) :: b -> In (k, w) b -> v <> w -> (forall w', In (k, w') b -> w' = w) -> js_headers (from_axum_req r) = Ok m -> get k m <> Some v.
Proof.
  intros E I D U H G. apply (C94_header _ _ _ _ H) in G. destruct G as (a' & b' & E' & N). rewrite E in E'. apply app_split in E'. destruct E' as [(l & -> & E')|(l & -> & E')].
  - destruct l as [|x l]; cbn in E'; inversion E'; subst.
    + apply N. apply in_map_iff. exists (k, w). auto.
    + apply N. rewrite map_app. apply in_or_app. right. left. reflexivity.
  - destruct l as [|x l]; cbn in E'; inversion E'; subst.
    + apply N. apply in_map_iff. exists (k, w). auto.
    + apply D. rewrite (U v); [reflexivity|]. apply in_or_app. right. left. reflexivity.
Qed.
(** C94: a body of an announced length is seen whole, each time it is asked for. *)
Theorem C94_body r n b calls : announces r n -> (0 < n)%Z -> rq_body r = Whole b ->
  js_body_calls utf8 calls (from_axum_req r) = repeat (match utf8 b with Some t => Ok (Some t) | None => Err tt end) calls.
Proof.
  intros A L B. rewrite (from_axum_some _ _ A L), B. destruct calls as [|calls]; [reflexivity|]. cbn [js_body_calls js_body_call js_body_of js_parts repeat]. f_equal.
  induction calls as [|calls IH]; [reflexivity|]. cbn [js_body_calls js_body_call js_body_of repeat]. f_equal. exact IH.
Qed.
(** C94, refuted: a body without an announced length (one sent in chunks) is not seen at all. *)
Theorem C94_body_refuted r b calls : (forall n, announces r n -> n = 0%Z) -> rq_body r = Whole b -> js_body_calls utf8 calls (from_axum_req r) = repeat (Ok None) calls.
Proof.
  intros A _. rewrite (from_axum_none _ A). induction calls as [|calls IH]; [reflexivity|]. cbn [js_body_calls js_body_call js_body_of repeat]. f_equal. exact IH.
Qed.
(** C94, refuted: asking again for a body that broke off crashes. *)
Theorem C94_broken_refuted r n calls : announces r n -> (0 < n)%Z -> rq_body r = Broken -> js_body_calls utf8 (S calls) (from_axum_req r) = Err tt :: repeat Panic calls.
Proof.
  intros A L B. rewrite (from_axum_some _ _ A L), B. cbn [js_body_calls js_body_call js_body_of js_parts]. f_equal.
  induction calls as [|calls IH]; [reflexivity|]. cbn [js_body_calls js_body_call js_body_of repeat]. f_equal. exact IH.
Qed.
(** C94, refuted: nothing of a request reaches a Python handler: with any other requests the same
    handlers are called and the same answers are given. *)
Theorem C94_python_refuted reg es es' : Forall2 same_event es es' -> py_steps reg py_new es = py_steps reg py_new es'.
Proof.
  intros F. generalize py_new. induction F as [|e e' es es' S F IH]; intros s; [reflexivity|]. cbn [py_steps]. assert (py_step reg s e = py_step reg s e') as -> by (destruct S; reflexivity). destruct (py_step reg s e'); [apply IH|reflexivity].
Qed.

(** C95: Python handlers answer requests in the order of their arrival, each once. *)
Theorem C95_order reg es s : py_steps reg py_new es = Some s ->
  arrivals es = map fst (py_results s) ++ match py_running s with Some n => [n] | None => [] end ++ map fst (py_queue s).
Proof. intros H. apply py_order in H. cbn in H. symmetry. exact H. Qed.
(** C95: a request calls the handler that was registered last for its path and method, and at most
    once. *)
Lemma queued reg es : forall s s', py_steps reg s es = Some s' ->
  (forall n id, In (n, id) (py_queue s') -> In (n, id) (py_queue s) \/ exists r p m, In (Arrives n r p m) es /\ id = handler_id p m) /\
  (forall n k, In (n, k) (py_calls s') -> In (n, k) (py_calls s) \/ exists id, get id reg = Some k /\ (In (n, id) (py_queue s) \/ exists r p m, In (Arrives n r p m) es /\ id = handler_id p m)).
Proof.
  induction es as [|e es IH]; intros s s'; cbn [py_steps]; [intros [= <-]; auto|]. destruct (py_step reg s e) as [t|] eqn:E; [|discriminate]. intros H. apply IH in H. destruct H as (Q & C).
  assert (QT : forall n id, In (n, id) (py_queue t) -> In (n, id) (py_queue s) \/ exists r p m, In (Arrives n r p m) [e] /\ id = handler_id p m).
  { destruct s as [q run calls res]. destruct e as [n r p m| |r]; cbn [py_step py_queue py_running py_calls py_results] in E.
    - injection E as <-. cbn. intros n' id I. apply in_app_iff in I. destruct I as [I|[[= <- <-]|[]]]; [auto|]. right. exists r, p, m. auto.
    - destruct run; [discriminate|]. destruct q as [|[n id] q]; [discriminate|]. destruct (get id reg); injection E as <-; cbn; auto.
    - destruct run; [|discriminate]. injection E as <-. cbn. auto. }
  assert (CT : forall n k, In (n, k) (py_calls t) -> In (n, k) (py_calls s) \/ exists id, get id reg = Some k /\ In (n, id) (py_queue s)).
  { destruct s as [q run calls res]. destruct e as [n r p m| |r]; cbn [py_step py_queue py_running py_calls py_results] in E.
    - injection E as <-. cbn. auto.
    - destruct run; [discriminate|]. destruct q as [|[n id] q]; [discriminate|]. destruct (get id reg) as [k0|] eqn:G; injection E as <-; cbn; [|auto]. intros n' k I. apply in_app_iff in I. destruct I as [I|[[= <- <-]|[]]]; [auto|]. right. exists id. auto.
    - destruct run; [|discriminate]. injection E as <-. cbn. auto. }
  split.
  - intros n id I. destruct (Q n id I) as [J|(r & p & m & J & ->)].
    + destruct (QT n id J) as [K|(r & p & m & [->|[]] & ->)]; [auto|]. right. exists r, p, m. cbn. auto.
    + right. exists r, p, m. cbn. auto.
  - intros n k I. destruct (C n k I) as [J|(id & G & [J|(r & p & m & J & ->)])].
    + destruct (CT n k J) as [K|(id & G & K)]; [auto|]. right. exists id. auto.
    + right. exists id. split; [exact G|]. destruct (QT n id J) as [K|(r & p & m & [->|[]] & ->)]; [auto|]. right. exists r, p, m. cbn. auto.
    + right. eexists. split; [exact G|]. right. exists r, p, m. cbn. auto.
Qed.
Theorem C95_handler regs es s n k : (forall n r p m, In (Arrives n r p m) es -> plain_path p /\ exists v, RouteSpec.names m v) -> py_steps (py_registry regs) py_new es = Some s ->
  In (n, k) (py_calls s) -> exists r p m, In (Arrives n r p m) es /\ last_registered regs p m k.
Proof.
  intros P H I. apply queued in H. destruct H as (_ & C). destruct (C n k I) as [[]|(id & G & [[]|(r & p & m & J & ->)])]. exists r, p, m. split; [exact J|]. destruct (P _ _ _ _ J) as (A & v & B). eapply registry_iff; eauto.
Qed.
Lemma calls_inv reg es : forall s s', py_steps reg s es = Some s' -> NoDup (map fst (py_results s) ++ pending s ++ arrivals es) ->
  NoDup (map fst (py_calls s)) -> (forall n, In n (map fst (py_calls s)) -> In n (map fst (py_results s)) \/ py_running s = Some n) -> NoDup (map fst (py_calls s')).
Proof.
  induction es as [|e es IH]; intros s s'; cbn [py_steps]; [intros [= <-]; auto|]. destruct (py_step reg s e) as [t|] eqn:E; [|discriminate]. intros H D N S.
  assert (X : map fst (py_results t) ++ pending t ++ arrivals es = map fst (py_results s) ++ pending s ++ arrivals (e :: es)).
  { pose proof (py_order reg [e] s t) as O. cbn [py_steps] in O. rewrite E in O. specialize (O eq_refl). change (e :: es) with ([e] ++ es). rewrite arrivals_app, !app_assoc, O, !app_assoc. reflexivity. }
  refine (IH t s' H _ _ _); clear IH; [rewrite X; exact D| |].
  - destruct s as [q run calls res]. destruct e as [n r p m| |r]; cbn [py_step py_queue py_running py_calls py_results] in *.
    + injection E as <-. exact N.
    + destruct run; [discriminate|]. destruct q as [|[n id] q]; [discriminate|]. destruct (get id reg) as [k0|]; injection E as <-; [|exact N]. cbn [py_calls]. rewrite map_app. cbn. apply NoDup_rev in N. rewrite <- (rev_involutive (_ ++ _)), rev_app_distr. cbn [rev app]. change (NoDup (rev (n :: rev (map fst calls)))). apply NoDup_rev. constructor; [|exact N].
      rewrite <- in_rev. intros I. destruct (S n I) as [J|J]; [|discriminate]. unfold pending in D. cbn [py_running py_queue map fst app] in D. eapply NoDup_remove_2; [exact D|]. apply in_or_app. auto.
    + destruct run; [|discriminate]. injection E as <-. exact N.
  - destruct s as [q run calls res]. destruct e as [n r p m| |r]; cbn [py_step py_queue py_running py_calls py_results] in *.
    + injection E as <-. exact S.
    + destruct run; [discriminate|]. destruct q as [|[n id] q]; [discriminate|]. destruct (get id reg) as [k0|]; injection E as <-; cbn [py_calls py_results py_running].
      * intros n' I. rewrite map_app in I. apply in_app_iff in I. destruct I as [I|[<-|[]]]; [|auto]. destruct (S n' I) as [J|J]; [auto|discriminate].
      * intros n' I. destruct (S n' I) as [J|J]; [|discriminate]. left. rewrite map_app. apply in_or_app. auto.
    + destruct run as [n|]; [|discriminate]. injection E as <-. cbn [py_calls py_results py_running]. intros n' I. left. rewrite map_app. apply in_or_app. destruct (S n' I) as [J|[= ->]]; [auto|right; left; reflexivity].
Qed.
Theorem C95_once reg es s : py_steps reg py_new es = Some s -> NoDup (arrivals es) -> NoDup (map fst (py_calls s)).
Proof. intros H D. eapply calls_inv; [exact H|exact D|constructor|intros n []]. Qed.
(** C95: an answer is the result of the handler that was running for that request, or says that there
    is none. *)
Theorem C95_result reg es s n r : py_steps reg py_new es = Some s -> In (n, r) (py_results s) ->
  (exists es1 x es2 s1, es = es1 ++ Ends x :: es2 /\ py_steps reg py_new es1 = Some s1 /\ py_running s1 = Some n /\ match x with Returned _ => r = x | Failed m => r = Failed (chars "Python error: " ++ m) end)
  \/ (exists id, get id reg = None /\ r = Failed (chars "Python error: Handler not found: " ++ id)).
Proof.
  revert s. induction es as [|e es IH] using rev_ind; intros s; [intros [= <-] []|]. rewrite py_steps_app. destruct (py_steps reg py_new es) as [t|] eqn:T; [|discriminate]. cbn [py_steps]. destruct (py_step reg t e) as [s0|] eqn:E; [|discriminate]. intros [= ->] I.
  assert (K : In (n, r) (py_results t) -> (exists es1 x es2 s1, es ++ [e] = es1 ++ Ends x :: es2 /\ py_steps reg py_new es1 = Some s1 /\ py_running s1 = Some n /\ match x with Returned _ => r = x | Failed m => r = Failed (chars "Python error: " ++ m) end)
    \/ (exists id, get id reg = None /\ r = Failed (chars "Python error: Handler not found: " ++ id))).
  { intros J. destruct (IH t eq_refl J) as [(es1 & x & es2 & s1 & -> & A)|A]; [|auto]. left. exists es1, x, (es2 ++ [e]), s1. split; [rewrite <- app_assoc; reflexivity|exact A]. }
  destruct t as [q run calls res]. destruct e as [n' r' p m| |x]; cbn [py_step py_queue py_running py_calls py_results] in *.
  - injection E as <-. auto.
  - destruct run; [discriminate|]. destruct q as [|[n' id] q]; [discriminate|]. destruct (get id reg) eqn:G; injection E as <-; cbn in I; [auto|]. apply in_app_iff in I. destruct I as [I|[[= <- <-]|[]]]; [auto|]. right. exists id. split; [exact G|]. reflexivity.
  - destruct run as [n'|]; [|discriminate]. injection E as <-. cbn in I. apply in_app_iff in I. destruct I as [I|[[= <- <-]|[]]]; [auto|]. left. exists es, x, [], (mk_py q (Some n') calls res). split; [reflexivity|]. split; [exact T|]. split; [reflexivity|]. destruct x; reflexivity.
Qed.
(** C95, refuted: while one handler runs - there is no limit to how long - no other request is
    answered and no other handler is called, whatever arrives. *)
Theorem C95_blocked_refuted reg s n es s' : py_running s = Some n -> (forall r, ~ In (Ends r) es) -> py_steps reg s es = Some s' -> py_results s' = py_results s /\ py_calls s' = py_calls s /\ py_running s' = Some n.
Proof.
  revert s. induction es as [|e es IH]; intros s R N; cbn [py_steps]; [intros [= <-]; auto|]. destruct (py_step reg s e) as [t|] eqn:E; [|discriminate]. intros H. destruct e as [n' r p m| |r].
  - injection E as <-. apply (IH _) in H; [exact H|exact R|]. intros r' I. apply (N r'). right. exact I.
  - cbn in E. rewrite R in E. discriminate.
  - exfalso. apply (N r). left. reflexivity.
Qed.

(** C96: through the C interface the first send decides, with the status set last before it. *)
Lemma do_sent ops : forall f, fr_sent f <> None -> fr_sent (fold_left ffi_do ops f) = fr_sent f.
Proof.
  induction ops as [|o ops IH]; intros f S; [reflexivity|]. cbn [fold_left]. destruct o; cbn [ffi_do].
  - rewrite IH; [reflexivity|exact S].
  - apply IH, S.
  - rewrite IH; cbn; destruct (fr_sent f); congruence.
Qed.
Lemma do_status ops s : forall f, no_send ops -> fr_sent f = None ->
  fr_sent (fold_left ffi_do ops f) = None /\ ((exists a b, ops = a ++ SetStatus s :: b /\ forall s', ~ In (SetStatus s') b) -> fr_status (fold_left ffi_do ops f) = s).
Proof.
  intros f N S. split.
  - revert f S. induction ops as [|o ops IH]; intros f S; [exact S|]. cbn [fold_left]. apply IH; [intros b I; apply (N b); right; exact I|]. destruct o; cbn; try exact S. exfalso. apply (N body). left. reflexivity.
  - clear N S. intros (a & b & -> & X). rewrite fold_left_app. cbn [fold_left ffi_do]. generalize (fold_left ffi_do a f). intros g. assert (G : forall ops f, (forall s', ~ In (SetStatus s') ops) -> fr_status (fold_left ffi_do ops f) = fr_status f).
    { clear. induction ops as [|o ops IH]; intros f N; [reflexivity|]. cbn [fold_left]. rewrite IH; [|intros s' I; apply (N s'); right; exact I]. destruct o; cbn; [exfalso; apply (N s); left|..]; reflexivity. }
    rewrite G; [reflexivity|exact X].
Qed.
Lemma do_new ops s : last_status ops s -> no_send ops -> fold_left ffi_do ops ffi_new = mk_ffi s None.
Proof.
  intros L N. destruct (do_status ops s ffi_new N eq_refl) as (A & B). assert (C : fr_status (fold_left ffi_do ops ffi_new) = s).
  { destruct L as [L|(-> & L)]; [exact (B L)|]. assert (G : forall ops f, (forall s', ~ In (SetStatus s') ops) -> fr_status (fold_left ffi_do ops f) = fr_status f).
    { clear. induction ops as [|o ops IH]; intros f N; [reflexivity|]. cbn [fold_left]. rewrite IH; [|intros s' I; apply (N s'); right; exact I]. destruct o; cbn; [exfalso; apply (N s); left|..]; reflexivity. }
    rewrite G; [reflexivity|exact L]. }
  destruct (fold_left ffi_do ops ffi_new) as [x y]. cbn in *. subst. reflexivity.
Qed.
Lemma do_none ops : forall f, fr_sent f = None -> no_send ops -> fr_sent (fold_left ffi_do ops f) = None.
Proof.
  clear. induction ops as [|o ops IH]; intros f S N; [exact S|]. cbn [fold_left]. apply IH; [|intros b I; apply (N b); right; exact I]. destruct o; cbn; try exact S. exfalso. apply (N body). left. reflexivity.
Qed.
Theorem C96_during pre body post later s : no_send pre -> last_status pre s ->
  ffi_call (pre ++ Send body :: post) later = (Returned (mk_response s None (Some body)), match later with [] => false | _ => true end).
Proof.
  intros N L. unfold ffi_call. rewrite fold_left_app. cbn [fold_left]. rewrite (do_new _ _ L N). cbn [ffi_do fr_sent fr_status].
  assert (E : fr_sent (fold_left ffi_do post (mk_ffi s (Some (mk_response s None (Some body))))) = Some (mk_response s None (Some body))) by (rewrite do_sent; [reflexivity|discriminate]).
  destruct later; cbn [ffi_later]; rewrite E; reflexivity.
Qed.
Theorem C96_later during pre t body post s : no_send (during ++ map snd pre) -> last_status (during ++ map snd pre) s -> (forall t' o, In (t', o) pre -> (t' < 30000)%N) -> (t < 30000)%N ->
  ffi_call during (pre ++ (t, Send body) :: post) = (Returned (mk_response s None (Some body)), match post with [] => false | _ => true end).
Proof.
  intros N L T T'. assert (E : forall ops f, fr_sent f = None -> no_send (map snd ops) -> (forall t' o, In (t', o) ops -> (t' < 30000)%N) -> forall rest, ffi_later f (ops ++ rest) = ffi_later (fold_left ffi_do (map snd ops) f) rest).
  { clear. induction ops as [|[t o] ops IH]; intros f S N T rest; [reflexivity|]. cbn [app ffi_later map snd fold_left]. rewrite S. destruct (N.ltb_spec t 30000) as [_|X]; [|specialize (T t o (or_introl eq_refl)); lia]. apply IH.
    - destruct o; cbn; try exact S. exfalso. apply (N body). left. reflexivity.
    - intros b I. apply (N b). right. exact I.
    - intros t' o' I. apply (T t' o'). right. exact I. }
  unfold ffi_call. assert (S0 : fr_sent (fold_left ffi_do during ffi_new) = None).
  { apply do_none; [reflexivity|]. intros b I. apply (N b). apply in_or_app. auto. }
  rewrite E; [|exact S0|intros b I; apply (N b); apply in_or_app; auto|exact T]. rewrite <- fold_left_app, (do_new _ _ L N). cbn [ffi_later fr_sent]. destruct (N.ltb_spec t 30000); [|lia]. cbn [ffi_do]. destruct post; reflexivity.
Qed.
(** C96: without a send in 30 seconds the request fails; that is a fault only of a handler that
    goes on after them. *)
Theorem C96_none during later : no_send during -> (forall t b, In (t, Send b) later -> (30000 <= t)%N) ->
  exists fault, ffi_call during later = (Failed (chars "Handler timed out"), fault) /\
    (fault = true <-> exists t o, In (t, o) later /\ (30000 <= t)%N).
Proof.
  intros N L. unfold ffi_call. pose proof (do_none during ffi_new eq_refl N) as S0.
  clear N. revert S0. generalize (fold_left ffi_do during ffi_new). induction later as [|[t o] later IH]; intros f S; cbn [ffi_later]; rewrite S.
  - exists false. split; [reflexivity|]. split; [discriminate|]. intros (t & o & [] & _).
  - destruct (N.ltb_spec t 30000) as [X|X].
    + destruct (IH (fun t' b I => L t' b (or_intror I)) (ffi_do f o)) as (fault & E & B).
      { destruct o; cbn; try exact S. specialize (L t body (or_introl eq_refl)). lia. }
      exists fault. split; [exact E|]. rewrite B. split; intros (t' & o' & I & Y).
      * exists t', o'. split; [right; exact I|exact Y].
      * destruct I as [[= <- <-]|I]; [lia|]. exists t', o'. auto.
    + exists true. split; [reflexivity|]. split; [|reflexivity]. intros _. exists t, o. split; [left; reflexivity|exact X].
Qed.
(** C96, refuted: a handler that sends without having set a status crashes the request's task. *)
Theorem C96_status_refuted pre body post later : no_send pre -> (forall s, ~ In (SetStatus s) pre) -> answer (fst (ffi_call (pre ++ Send body :: post) later)) = Panic.
Proof.
  intros N X. rewrite (C96_during pre body post later 0 N); [|right; auto]. cbn [fst]. apply C93_crash_refuted. intros ((A & _) & _). cbn in A. lia.
Qed.
(** C96, refuted: using the response after its first send, or after 30 seconds, uses memory that has
    been given back. *)
Theorem C96_dangling_refuted during t o later : (30000 <= t)%N \/ (exists b, In (Send b) during) -> snd (ffi_call during ((t, o) :: later)) = true.
Proof.
  unfold ffi_call. intros [T|(b & I)].
  - cbn [ffi_later]. destruct (fr_sent _); [reflexivity|]. destruct (N.ltb_spec t 30000); [lia|reflexivity].
  - assert (E : fr_sent (fold_left ffi_do during ffi_new) <> None).
    { apply in_split in I. destruct I as (a & c & ->). rewrite fold_left_app. cbn [fold_left]. rewrite do_sent; cbn; destruct (fr_sent (fold_left ffi_do a ffi_new)); discriminate. }
    cbn [ffi_later]. destruct (fr_sent _); [reflexivity|congruence].
Qed.
End Http.

(** C97, refuted: through the C interface every handler is registered for POST at one fixed path,
    and a second registration crashes. *)
Theorem C97_path_refuted valid clash resolve sv r0 r k v path : RouteModel.setup_routes valid clash sv = Ok r0 -> ffi_register valid clash (Some r0) k = Ok (Some r) -> RouteModel.dispatch resolve r v path = RouteModel.Called (RouteModel.User k) ->
  v = RouteModel.Post /\ resolve (map RouteModel.rt_path r) path = Some (chars "/orders/:orderId").
Proof.
  intros S R D. unfold ffi_register, RouteModel.register in R. replace (RouteModel.verb_of (chars "POST")) with (Some RouteModel.Post) in R by reflexivity.
  destruct (RouteModel.add_route valid clash r0 (chars "/orders/:orderId") RouteModel.Post (RouteModel.User k)) as [r1|?|] eqn:A; cbn [omap] in R; try discriminate. injection R as ->. apply RouteProofs.add_route_iff in A. destruct A as (_ & ->).
  apply RouteProofs.dispatch_called in D. destruct D as (x & I & T & P & V). apply in_app_iff in I. destruct I as [I|[<-|[]]].
  - apply (RouteProofs.setup_routes_to _ _ _ _ _ S) in I. destruct I as (_ & [I|I]); congruence.
  - cbn in *. split; [|exact P]. destruct V as [V|(_ & V)]; [congruence|discriminate].
Qed.
Theorem C97_second_refuted valid clash o k o' k' : ffi_register valid clash (Some o) k = Ok o' -> ffi_register valid clash o' k' = Panic.
Proof.
  unfold ffi_register, RouteModel.register. replace (RouteModel.verb_of (chars "POST")) with (Some RouteModel.Post) by reflexivity.
  destruct (RouteModel.add_route valid clash o (chars "/orders/:orderId") RouteModel.Post (RouteModel.User k)) as [r1|?|] eqn:A; cbn [omap]; try discriminate. intros [= <-]. apply RouteProofs.add_route_iff in A. destruct A as (_ & ->).
  match goal with |- context[RouteModel.add_route valid clash ?r ?p ?v ?t] => destruct (RouteProofs.add_route_cases valid clash r p v t) as [(r2 & B)|B]; rewrite B; cbn [omap]; [exfalso|reflexivity] end.
  apply RouteProofs.add_route_iff in B. destruct B as ((_ & _ & N & _) & _). apply N. exists (RouteModel.User k). apply in_or_app. right. left. reflexivity.
Qed.
(** C97: the C interface lists the handlers that setup found, all of them and in order, and then no
    more; unless a text in one has a zero. *)
Theorem C97_listed a c n : ApiModel.app_api a = Some c -> (forall h t, In h (ApiSpec.http_handlers c) -> In t [RouteSpec.handler_path h; RouteSpec.handler_method h; ApiModel.h_handler h; ApiModel.h_location h] -> ~ In 0%N t) ->
  ffi_take (length (ApiSpec.http_handlers c) + n) (ffi_handlers a)
  = map (fun h => Ok (Some (RouteSpec.handler_path h, RouteSpec.handler_method h, ApiModel.h_handler h, ApiModel.h_location h))) (ApiSpec.http_handlers c) ++ repeat (Ok None) n.
Proof.
  intros A Z. assert (E : ffi_handlers a = ApiSpec.http_handlers c) by (unfold ffi_handlers, ApiSpec.http_handlers; rewrite A; reflexivity). rewrite E. clear A E. revert Z. generalize (ApiSpec.http_handlers c). intros hs Z.
  assert (C : forall t, ~ In 0%N t -> cstring t = Ok t).
  { intros t N. unfold cstring. destruct (existsb (N.eqb 0) t) eqn:X; [|reflexivity]. apply existsb_exists in X. destruct X as (c0 & I & Q). apply N.eqb_eq in Q. subst c0. contradiction. }
  induction hs as [|h hs IH].
  - cbn [length app map]. induction n as [|n IHn]; [reflexivity|]. cbn. f_equal. exact IHn.
  - cbn [length Nat.add ffi_take ffi_next map app]. f_equal.
    + unfold ffi_definition. fold (RouteSpec.handler_path h). fold (RouteSpec.handler_method h). rewrite !C; [reflexivity|..]; apply (Z h); cbn; auto 6.
    + apply IH. intros h' t I. apply Z. right. exact I.
Qed.

(** Cases that meet the hypotheses *)
Definition ex_name (t : text) := negb (existsb (fun c => (c <=? 32) || (126 <? c))%N t).
Definition ex_json (m : text) := chars "{""message"":""" ++ m ++ chars """}".
Definition ex_answer := answer ex_name (fun _ => true) ex_json.
Definition ex_ok := mk_response 201 (Some [(chars "X-Kind", chars "Order")]) (Some (chars "made")).
Example C92_nonvacuous :
  node_outcome (Promise (Some (30000, Returned ex_ok)%N)) (Returned ex_ok) /\ node_outcome (Promise (Some (30000, Returned ex_ok)%N)) (Failed (chars "handler timed out"))
  /\ ex_answer (Failed (chars "no stock")) = Ok (mk_reply 200 [(chars "content-type", chars "application/json")] (chars "{""message"":""no stock""}")).
Proof. split; [constructor; lia|]. split; [constructor; lia|]. reflexivity. Qed.
Example C93_nonvacuous :
  ex_answer (Returned ex_ok) = Ok (mk_reply 201 [(chars "x-kind", chars "Order")] (chars "made"))
  /\ ~ sendable ex_name (fun _ => true) (mk_response 200 (Some [(chars "a b", chars "c")]) None) /\ ~ sendable ex_name (fun _ => true) (mk_response 1000 None None)
  /\ ffi_call [SetHeaders [(chars "a", chars "b")]; SetStatus 200] [(5%N, Send (chars "hi"))] = (Returned (mk_response 200 None (Some (chars "hi"))), false).
Proof.
  split; [vm_compute; reflexivity|]. split.
  - intros (_ & H). destruct (H _ (chars "a b") (chars "c") eq_refl (or_introl eq_refl)) as (A & _). vm_compute in A. discriminate.
  - split; [|reflexivity]. intros ((_ & H) & _). cbn in H. lia.
Qed.
Definition ex_req (hs : list (text * bytes)) b := mk_request (chars "POST") (chars "/orders?x=1") hs b.
Definition ex_two := ex_req [(chars "cookie", chars "a=1"); (chars "content-length", chars "12"); (chars "cookie", chars "b=2")] (Whole (chars "hello world!")).
Example C94_nonvacuous :
  announces ex_two 12 /\ js_body_calls Some 2 (from_axum_req ex_two) = [Ok (Some (chars "hello world!")); Ok (Some (chars "hello world!"))]
  /\ js_headers (from_axum_req ex_two) = Ok [(chars "cookie", chars "b=2"); (chars "content-length", chars "12")]
  /\ (forall n, announces (ex_req [(chars "transfer-encoding", chars "chunked")] (Whole (chars "hello"))) n -> n = 0%Z)
  /\ js_body_calls Some 2 (from_axum_req (ex_req [(chars "content-length", chars "12")] Broken)) = [Err tt; Panic]
  /\ ~ textual [233%N] /\ js_headers (from_axum_req (ex_req [(chars "name", [233%N])] Broken)) = Panic.
Proof.
  split.
  { exists (chars "12"). split; [|split; [|lia]].
    - exists [(chars "cookie", chars "a=1")], [(chars "cookie", chars "b=2")]. split; [reflexivity|]. intros [E|[]]. vm_compute in E. discriminate.
    - left. exact (ResolveSpec.dm_more [49%N] 1 2 (ResolveSpec.dm_one 1 ltac:(lia)) ltac:(lia)). }
  split; [vm_compute; reflexivity|]. split; [vm_compute; reflexivity|]. split.
  { intros n (v & (a & b & E & _) & _). destruct a as [|x [|y a]]; vm_compute in E; discriminate. }
  split; [vm_compute; reflexivity|]. split; [|vm_compute; reflexivity].
  intros H. destruct (H 233%N (or_introl eq_refl)) as [X|X]; lia.
Qed.
Definition ex_pregs := [(chars "/a", chars "get", 0); (chars "/b", chars "POST", 1); (chars "/a", chars "get", 2)].
Definition ex_events := [Arrives 10 ex_two (chars "/a") (chars "get"); Takes; Arrives 11 ex_two (chars "/b") (chars "POST"); Arrives 12 ex_two (chars "/c") (chars "get"); Ends (Failed (chars "oops")); Takes; Ends (Returned ex_ok); Takes; Arrives 13 ex_two (chars "/b") (chars "POST"); Takes].
Definition ex_py := mk_py [] (Some 13) [(10, 2); (11, 1); (13, 1)] [(10, Failed (chars "Python error: oops")); (11, Returned ex_ok); (12, Failed (chars "Python error: Handler not found: /c::get"))].
Example C95_nonvacuous :
  py_steps (py_registry ex_pregs) py_new ex_events = Some ex_py /\ NoDup (arrivals ex_events)
  /\ (forall n r p m, In (Arrives n r p m) ex_events -> plain_path p /\ exists v, RouteSpec.names m v)
  /\ (exists s, py_steps (py_registry ex_pregs) ex_py [Arrives 14 ex_two (chars "/a") (chars "get"); Arrives 15 ex_two (chars "/a") (chars "get")] = Some s /\ py_results s = py_results ex_py).
Proof.
  split; [vm_compute; reflexivity|]. split; [repeat constructor; cbn; lia|]. split.
  - assert (G : exists v, RouteSpec.names (chars "get") v) by (exists RouteModel.Get; repeat constructor).
    assert (P : exists v, RouteSpec.names (chars "POST") v). { exists RouteModel.Post. unfold RouteSpec.names, EnvSpec.word. repeat first [apply Forall2_nil | apply Forall2_cons]; unfold EnvSpec.same_letter; cbn; lia. }
    intros n r p m I. unfold ex_events in I. repeat (destruct I as [I|I]; [first [discriminate I|inversion I; subst; split; [reflexivity|assumption]]|]). destruct I.
  - eexists. split; vm_compute; reflexivity.
Qed.
Example C96_nonvacuous :
  ffi_call [SetStatus 200; SetStatus 404; Send (chars "a"); SetStatus 500; Send (chars "b")] [] = (Returned (mk_response 404 None (Some (chars "a"))), false)
  /\ ffi_call [SetStatus 200] [(29999%N, Send (chars "a")); (30001%N, SetStatus 500)] = (Returned (mk_response 200 None (Some (chars "a"))), true)
  /\ ffi_call [SetStatus 200] [(30000%N, Send (chars "a"))] = (Failed (chars "Handler timed out"), true)
  /\ ex_answer (fst (ffi_call [Send (chars "a")] [])) = Panic
  /\ no_send [SetStatus 200; SetStatus 404] /\ last_status [SetStatus 200; SetStatus 404] 404.
Proof.
  do 4 (split; [vm_compute; reflexivity|]). split; [intros b [H|[H|[]]]; discriminate|]. left. exists [SetStatus 200], []. split; [reflexivity|]. intros s [].
Qed.
Example C97_nonvacuous :
  (exists r0 r, RouteModel.setup_routes RouteProps.ok_valid RouteProps.ok_clash (snd (RouteProps.ex_app RouteProps.ex_three)) = Ok r0
     /\ ffi_register RouteProps.ok_valid RouteProps.ok_clash (Some r0) 0 = Ok (Some r) /\ RouteModel.dispatch RouteProps.ok_resolve r RouteModel.Post (chars "/orders/:orderId") = RouteModel.Called (RouteModel.User 0)
     /\ RouteModel.dispatch RouteProps.ok_resolve r RouteModel.Get (chars "/orders/7") = RouteModel.NotFound
     /\ ffi_register RouteProps.ok_valid RouteProps.ok_clash (Some r) 1 = Panic)
  /\ (let c := fst (RouteProps.ex_app RouteProps.ex_three) in length (ApiSpec.http_handlers c) = 3
     /\ forall h t, In h (ApiSpec.http_handlers c) -> In t [RouteSpec.handler_path h; RouteSpec.handler_method h; ApiModel.h_handler h; ApiModel.h_location h] -> ~ In 0%N t).
Proof.
  split.
  - eexists _, _. split; [vm_compute; reflexivity|]. split; [vm_compute; reflexivity|]. vm_compute. auto.
  - cbv zeta. split; [vm_compute; reflexivity|]. intros h t I J. assert (Z : existsb (fun h => existsb (existsb (N.eqb 0)) [RouteSpec.handler_path h; RouteSpec.handler_method h; ApiModel.h_handler h; ApiModel.h_location h]) (ApiSpec.http_handlers (fst (RouteProps.ex_app RouteProps.ex_three))) = false) by (vm_compute; reflexivity).
    intros K. apply not_true_iff_false in Z. apply Z. apply existsb_exists. exists h. split; [exact I|]. apply existsb_exists. exists t. split; [exact J|]. apply existsb_exists. exists 0%N. split; [exact K|reflexivity].
Qed.
Print Assumptions C92_message.
Print Assumptions C92_node.
Print Assumptions C92_status_refuted.
Print Assumptions C92_node_refuted.
Print Assumptions C93_sent.
Print Assumptions C93_crash_refuted.
Print Assumptions C93_headers_refuted.
Print Assumptions C94_target.
Print Assumptions C94_headers.
Print Assumptions C94_header.
Print Assumptions C94_header_refuted.
Print Assumptions C94_body.
Print Assumptions C94_body_refuted.
Print Assumptions C94_broken_refuted.
Print Assumptions C94_python_refuted.
Print Assumptions C95_order.
Print Assumptions C95_handler.
Print Assumptions C95_once.
Print Assumptions C95_result.
Print Assumptions C95_blocked_refuted.
Print Assumptions C96_during.
Print Assumptions C96_later.
Print Assumptions C96_none.
Print Assumptions C96_status_refuted.
Print Assumptions C96_dangling_refuted.
Print Assumptions C97_path_refuted.
Print Assumptions C97_second_refuted.
Print Assumptions C97_listed.
