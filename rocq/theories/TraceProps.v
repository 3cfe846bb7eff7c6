(** C159: the layers around every route; C160: what is recorded of a request *)
From Verif Require Import Base Chars Value WsModel WsSpec WsProofs WsProps IdModel IdSpec IdProps XrayModel TraceModel TraceSpec.
Local Open Scope list_scope.

Lemma first_unique name hs v w : first_header name v hs -> first_header name w hs -> v = w.
Proof. intros H1 H2. apply get_header_some in H1, H2. congruence. Qed.
Lemma id_has hs g : has_id hs g (request_id hs g).
Proof.
  unfold has_id, request_id. change (chars "x-request-id") with request_id_header. destruct (get_header request_id_header hs) as [v|] eqn:G.
  - apply get_header_some in G. destruct (to_str v) as [t|] eqn:T.
    + apply to_str_some in T as [-> P]. left. now split.
    + right. split; [reflexivity|]. intros w W P. pose proof (first_unique _ _ _ _ G W) as <-.
      assert (to_str v = Some v) by (apply to_str_some; now split). congruence.
  - right. split; [reflexivity|]. intros w W. apply get_header_some in W. congruence.
Qed.
Lemma has_id_unique hs g a b : has_id hs g a -> has_id hs g b -> a = b.
Proof.
  unfold has_id. intros [[A P]|[-> A]] [[C Q]|[-> C]].
  - now apply (first_unique _ _ _ _ A C).
  - exfalso. now apply (C a A).
  - exfalso. now apply (A b C).
  - reflexivity.
Qed.
Lemma agent_names hs : names_client hs (user_agent hs).
Proof.
  unfold names_client, user_agent. destruct (get_header (chars "user-agent") hs) as [v|] eqn:G.
  - apply get_header_some in G. destruct (to_str v) as [t|] eqn:T.
    + apply to_str_some in T as [-> P]. left. now split.
    + right. split; [reflexivity|]. intros w W P. pose proof (first_unique _ _ _ _ G W) as <-.
      assert (to_str v = Some v) by (apply to_str_some; now split). congruence.
  - right. split; [reflexivity|]. intros w W. apply get_header_some in W. congruence.
Qed.
Lemma names_unique hs a b : names_client hs a -> names_client hs b -> a = b.
Proof.
  unfold names_client. intros [[A P]|[-> A]] [[C Q]|[-> C]].
  - now apply (first_unique _ _ _ _ A C).
  - exfalso. now apply (C a A).
  - exfalso. now apply (A b C).
  - reflexivity.
Qed.

Section Server.
Variable B R : Type.
Variable status : R -> N.
Variable rejected : R.
Notation server := (server B R status rejected).
Notation incoming := (incoming B).

(** Whether and how an application traces, what its clients are answered is what its handlers answer,
    given the request as it came, with its id and the peer's address. *)
Theorem C159_transparent : forall enabled on p new g handler hs line peer rest x id, has_id hs g id ->
  fst (server enabled on p new g handler (incoming hs line peer rest) x) = fst (handler (mk_request hs line (Some peer) (Some id) true rest)).
Proof.
  intros enabled on p new g handler hs line peer rest x id I. rewrite (has_id_unique _ _ _ _ I (id_has hs g)). now destruct enabled.
Qed.
(** Each request says once that it came, before all else but what its span records, then what its
    handler says, and once, at the end, that it was answered, with the status it was answered with; or
    nothing at all where lines of level info do not come out. *)
Theorem C159_logged : forall enabled p new g handler hs line peer rest x id, has_id hs g id ->
  (forall r es, server enabled true p new g handler (incoming hs line peer rest) x = (r, es) ->
     exists before, es = before ++ [Received] ++ map Said (snd (handler (mk_request hs line (Some peer) (Some id) true rest))) ++ [Processed (status r)] /\
       ~ In Received before /\ (forall s, ~ In (Processed s) before) /\ (forall t, ~ In (Said t) before) /\ (enabled = false -> before = [])) /\
  snd (server enabled false p new g handler (incoming hs line peer rest) x) = [].
Proof.
  intros enabled p new g handler hs line peer rest x id I. rewrite (has_id_unique _ _ _ _ I (id_has hs g)). split; [|now destruct enabled].
  intros r es. destruct enabled.
  - unfold server, TraceModel.server, id_layer, ip_source, attach_tracing, trace_layer, enrich_span, log_request, route, incoming, TraceModel.incoming.
    cbn [q_id q_ip_source q_peer q_headers q_line q_rest fst snd]. intros [= <- <-].
    exists (Opened line :: fields p peer (request_id hs g) (user_agent hs) (Some new)). split; [reflexivity|].
    unfold fields. split; [intros H|split; [intros s H|split; [intros s H|discriminate]]]; destruct p; cbn [app In] in H; intuition discriminate.
  - intros [= <- <-]. exists []. repeat split; [intros []|intros s []|intros s []].
Qed.
(** What the span of a request records: each of these, and nothing else. *)
Theorem C160_fields : forall p new g handler hs line peer rest x id agent, has_id hs g id -> names_client hs agent ->
  let es := snd (server true true p new g handler (incoming hs line peer rest) x) in
  (exists es', es = Opened line :: es' /\ forall l, ~ In (Opened l) es') /\
  forall name value, recorded name value es <->
    (name, value) = (chars "client_ip", peer) \/ (name, value) = (chars "trace_id", hex 32 new) \/
    (name, value) = (chars "request_id", id) \/ (name, value) = (chars "connection_id", id) \/
    (name, value) = (chars "user_agent", agent) \/
    (p = OnAWS /\ (name, value) = (chars "xray_trace_id", xray_of new)).
Proof.
  intros p new g handler hs line peer rest x id agent I A. rewrite (has_id_unique _ _ _ _ I (id_has hs g)). rewrite (names_unique _ _ _ A (agent_names hs)). cbn zeta.
  set (said := snd (handler (mk_request hs line (Some peer) (Some (request_id hs g)) true rest))).
  set (st := status (fst (handler (mk_request hs line (Some peer) (Some (request_id hs g)) true rest)))).
  set (fs := fields p peer (request_id hs g) (user_agent hs) (Some new)).
  assert (E: snd (server true true p new g handler (incoming hs line peer rest) x) = Opened line :: fs ++ [Received] ++ map Said said ++ [Processed st]) by reflexivity.
  unfold recorded. rewrite E.
  assert (NS: forall e, (forall t, e <> Said t) -> In e ([Received] ++ map Said said ++ [Processed st]) -> e = Received \/ e = Processed st).
  { intros e H. rewrite !in_app_iff. cbn [In]. intros [[X|[]]|[X|[X|[]]]]; [now left|apply in_map_iff in X as (t & X & _); exfalso; now apply (H t)|now right]. }
  split.
  - eexists. split; [reflexivity|]. intros l H. apply in_app_iff in H as [H|H].
    + unfold fs, fields in H. destruct p; cbn [app In] in H; intuition discriminate.
    + apply NS in H as [H|H]; discriminate.
  - intros name value. cbn [In]. rewrite in_app_iff. split.
    + intros [H|[H|H]]; [discriminate| |apply NS in H as [H|H]; discriminate].
      unfold fs, fields in H. destruct p; cbn [app In] in H;
      repeat match goal with H : _ \/ _ |- _ => destruct H as [H|H] | H : False |- _ => destruct H | H : Field _ _ = Field _ _ |- _ => injection H as <- <- end; intuition auto.
    + intros H. right. left. unfold fs, fields.
      repeat match goal with H : _ \/ _ |- _ => destruct H as [H|H] end; try (injection H as -> ->; cbn [app In]; intuition auto; fail).
      destruct H as [-> H]. injection H as -> ->. cbn [app In]. intuition auto.
Qed.
(** No other header than these two makes a difference to what is recorded, so a trace that a client
    or a gateway has begun is not continued. *)
Theorem C160_upstream_refuted : forall enabled on p new g hs hs' line peer rest x handler,
  same_header (chars "x-request-id") hs hs' -> same_header (chars "user-agent") hs hs' ->
  (forall q, handler q = handler (mk_request [] (q_line q) (q_peer q) (q_id q) (q_ip_source q) (q_rest q))) ->
  snd (server enabled on p new g handler (incoming hs line peer rest) x) = snd (server enabled on p new g handler (incoming hs' line peer rest) x).
Proof.
  intros enabled on p new g hs hs' line peer rest x handler I A S.
  assert (E: request_id hs g = request_id hs' g).
  { apply (has_id_unique hs' g); [|apply id_has]. destruct (id_has hs g) as [[F P]|[F N]]; [left|right]; [split; [now apply I|exact P]|split; [exact F|]]. intros v V. apply N. now apply I. }
  assert (U: user_agent hs = user_agent hs').
  { apply (names_unique hs'); [|apply agent_names]. destruct (agent_names hs) as [[F P]|[F N]]; [left|right]; [split; [now apply A|exact P]|split; [exact F|]]. intros v V. apply N. now apply A. }
  destruct enabled; cbn; rewrite ?E, ?U; rewrite !(S (mk_request hs _ _ _ _ _)), !(S (mk_request hs' _ _ _ _ _)); reflexivity.
Qed.
End Server.

Lemma keeps_subscriber es : forall pr l, pr_subscriber pr = Some l -> pr_subscriber (process_after pr es) = Some l.
Proof.
  induction es as [|e es IH]; intros pr l H; [exact H|]. apply IH. destruct e as [ex a|k]; [|exact H].
  cbn. unfold run, setup_tracing. rewrite H. destruct (a_tracing a), ex, (a_test a); cbn; first [exact H|reflexivity].
Qed.
Lemma process_after_app es1 : forall pr es2, process_after pr (es1 ++ es2) = process_after (process_after pr es1) es2.
Proof. induction es1 as [|e es1 IH]; intros pr es2; [reflexivity|apply IH]. Qed.
Lemma installed pr ex a : installs a -> snd (happens pr (Runs ex a)) = true -> pr_subscriber (fst (happens pr (Runs ex a))) = Some (a_level a).
Proof.
  intros [T S]. cbn. unfold run, setup_tracing. rewrite T, S. destruct ex; cbn; [|discriminate]. destruct (pr_subscriber pr); cbn; [discriminate|reflexivity].
Qed.

(** The first application that traces decides for the process, for ever, what comes out. *)
Theorem C160_level : forall before exporter a after, installs a ->
  snd (happens (process_after new_process before) (Runs exporter a)) = true ->
  comes_out (process_after new_process (before ++ Runs exporter a :: after)) = true <-> a_level a <> LError /\ a_level a <> LWarn.
Proof.
  intros before exporter a after I H. rewrite process_after_app. cbn [process_after]. unfold comes_out. rewrite (keeps_subscriber after _ _ (installed _ _ _ I H)).
  destruct (a_level a); cbn; intuition congruence.
Qed.
(** An application that traces can be run where none was, if the exporter can be made. *)
Theorem C160_first : forall es a, installs a -> (forall ex b, In (Runs ex b) es -> ~ installs b) ->
  snd (happens (process_after new_process es) (Runs true a)) = true /\ comes_out (process_after new_process es) = false.
Proof.
  intros es a [T S] N. assert (H: pr_subscriber (process_after new_process es) = None).
  { assert (G: forall pr, pr_subscriber pr = None -> pr_subscriber (process_after pr es) = None); [|now apply G].
    clear T S. induction es as [|e es IH]; intros pr H; [exact H|]. apply IH; [intros ex b X; apply (N ex b); now right|]. destruct e as [ex b|k]; [|exact H].
    specialize (N ex b (or_introl eq_refl)). unfold installs in N. cbn. unfold run, setup_tracing. destruct (a_tracing b), (a_test b), ex; cbn; try exact H. all: exfalso; now apply N. }
  split; [|unfold comes_out; now rewrite H]. cbn. unfold run, setup_tracing. now rewrite T, S, H.
Qed.
(** Once one has run, no other can be run in the process, whatever is shut down; nor the same again. *)
Theorem C160_second_refuted : forall before exporter a after, installs a ->
  snd (happens (process_after new_process before) (Runs exporter a)) = true ->
  forall exporter' b, installs b -> let pr := process_after new_process (before ++ Runs exporter a :: after) in happens pr (Runs exporter' b) = (pr, false).
Proof.
  intros before exporter a after I H exporter' b [T S]. cbn zeta. rewrite process_after_app. cbn [process_after]. set (pr := process_after _ after).
  assert (K: pr_subscriber pr = Some (a_level a)) by (apply keeps_subscriber, installed; assumption).
  cbn. unfold run, setup_tracing. rewrite T, S, K. now destruct exporter'.
Qed.
(** In test mode, where tracing is said to be set up, and without tracing, nothing that an application
    says or records comes out. *)
Theorem C160_silent_refuted : forall es, (forall ex a, In (Runs ex a) es -> a_tracing a = false \/ a_test a = true) ->
  comes_out (process_after new_process es) = false.
Proof.
  intros es N. apply (C160_first es (mk_application true false LInfo)); [now split|]. intros ex b X [T S]. destruct (N ex b X); congruence.
Qed.

(** What serves: an application that could be run does, before those that did, which go on; one that
    could not changes nothing; and a shutdown ends the one that is shut down, and no other. *)
Theorem C160_serving : forall pr,
  (forall exporter a, let (pr', ok) := happens pr (Runs exporter a) in if ok then pr_serving pr' = a :: pr_serving pr else pr' = pr) /\
  (forall l a r, pr_serving pr = l ++ a :: r -> pr_serving (fst (happens pr (Shuts (length l)))) = l ++ r) /\
  (forall exporter a, a_tracing a = false -> snd (happens pr (Runs exporter a)) = true).
Proof.
  intros pr. split; [|split].
  - intros exporter a. cbn. unfold run. destruct (a_tracing a); [|reflexivity]. destruct (setup_tracing _ _ _); reflexivity.
  - intros l a r E. cbn. rewrite E, firstn_app, firstn_all, Nat.sub_diag. cbn [firstn]. rewrite app_nil_r. f_equal. clear E. induction l as [|x l IH]; [reflexivity|exact IH].
  - intros exporter a E. cbn. unfold run. now rewrite E.
Qed.
(** A request to an application on AWS, with a header of a gateway's trace, is answered by the handler
    and traced under a new id; and a second application cannot be run. *)
Definition example_headers : headers := [(chars "traceparent", chars "00-0af7651916cd43dd8448eb211c80319c-b7ad6b7169203331-01"); (chars "user-agent", chars "curl/8.0"); (chars "user-agent", chars "second"); (chars "x-request-id", chars "abc")].
Example C159_nonvacuous :
  let r := server nat N (fun r => r) 500%N true true OnAWS 1234567%N (chars "new") (fun q => match q_id q with Some i => (N.of_nat (200 + length i + q_rest q), [chars "hello"]) | None => (0%N, []) end)
             (incoming nat example_headers (chars "GET /orders") (chars "10.0.0.7") 1) None in
  fst r = 204%N /\ length (snd r) = 10 /\ recorded (chars "trace_id") (chars "0000000000000000000000000012d687") (snd r) /\ recorded (chars "user_agent") (chars "curl/8.0") (snd r) /\
  recorded (chars "xray_trace_id") (chars "1-00000000-00000000000000000012d687") (snd r) /\ recorded (chars "request_id") (chars "abc") (snd r) /\
  In (Processed 204) (snd r) /\ has_id example_headers (chars "new") (chars "abc") /\ names_client example_headers (chars "curl/8.0").
Proof.
  cbn zeta. repeat split; try (vm_compute; tauto); try (vm_compute; reflexivity).
  - apply (id_has example_headers (chars "new")).
  - apply (agent_names example_headers).
Qed.
Example C160_upstream_nonvacuous : same_header (chars "x-request-id") example_headers (tl example_headers) /\ same_header (chars "user-agent") example_headers (tl example_headers) /\
  example_headers <> tl example_headers.
Proof. repeat split; try (intros H; apply get_header_some in H; apply get_header_some; exact H). discriminate. Qed.
Example C160_nonvacuous :
  let a := mk_application true false LInfo in let t := mk_application true true LInfo in let u := mk_application false false LDebug in
  installs a /\ snd (happens (process_after new_process [Runs true t; Runs true u; Runs false a; Shuts 0]) (Runs true a)) = true /\
  comes_out (process_after new_process [Runs true t; Runs true u]) = false /\
  comes_out (process_after new_process [Runs true t; Runs true a; Shuts 0]) = true /\
  snd (happens (process_after new_process [Runs true t; Runs true a; Shuts 0; Shuts 0]) (Runs true a)) = false.
Proof. cbn zeta. repeat split. Qed.

Print Assumptions C159_transparent.
Print Assumptions C159_logged.
Print Assumptions C160_fields.
Print Assumptions C160_upstream_refuted.
Print Assumptions C160_level.
Print Assumptions C160_first.
Print Assumptions C160_second_refuted.
Print Assumptions C160_silent_refuted.
Print Assumptions C160_serving.
