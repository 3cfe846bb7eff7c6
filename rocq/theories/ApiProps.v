(** Properties of application setup *)
From Verif Require Import Base Value Bytes Chars ApiModel ApiSpec ApiProofs.
From Verif Require WsModel WsProofs WsProps.
From Coq Require Import Permutation.
Local Open Scope list_scope.

(** C45: what is selected is what has the type and one label with a key of the selector; *)
Theorem C45_exact sel b t nr : In nr (select_resources (Some sel) b t) <-> In nr (b_resources b) /\ touched sel t (snd nr).
Proof. exact (select_spec (mk_resource TOther None None SpOther (Some sel)) b t nr). Qed.
(** so whatever carries all labels of a selector is, *)
Theorem C45_complete sel b t nr : sel <> [] -> In nr (b_resources b) -> linked sel t (snd nr) -> In nr (select_resources (Some sel) b t).
Proof.
  intros N H [T L]. apply C45_exact. split; [exact H|]. destruct sel as [|[k v] sel]; [contradiction|]. exists k. split; [exact T|]. split; [exists v; now left|]. exists v. apply L. now left.
Qed.
Theorem C45_no_selector b t : select_resources None b t = [].
Proof. reflexivity. Qed.
(** but also what carries another value of a label, and what carries one label of several. *)
Theorem C45_value_refuted sel b t nr k v v' : In nr (b_resources b) -> resource_ok (snd nr) -> r_type (snd nr) = t -> In (k, v) sel -> has_label (snd nr) k v' -> v' <> v ->
  In nr (select_resources (Some sel) b t) /\ ~ linked sel t (snd nr).
Proof.
  intros H (K & _) T S L N. split; [apply C45_exact; split; [exact H|]; exists k; repeat split; eauto|]. intros [_ X]. destruct (X k v S) as (m & E & I). destruct L as (m' & E' & I'). assert (m' = m) by congruence. subst m'. apply N. eapply map_ok_eq; eauto.
Qed.
Theorem C45_every_refuted sel b t nr k v v' k2 v2 : In nr (b_resources b) -> r_type (snd nr) = t -> In (k, v) sel -> has_label (snd nr) k v' -> In (k2, v2) sel -> ~ has_label (snd nr) k2 v2 ->
  In nr (select_resources (Some sel) b t) /\ ~ linked sel t (snd nr).
Proof.
  intros H T S L S2 N. split; [apply C45_exact; split; [exact H|]; exists k; repeat split; eauto|]. intros [_ X]. apply N. now apply X.
Qed.

(** C46: what the timeout of a collected handler is *)
Lemma collected b name c h : blueprint_ok b -> collect_api_config b name = Ok c -> In h (http_handlers c ++ ws_handlers c) ->
  exists r s, In (h_handler h, r) (b_resources b) /\ r_type r = THandler /\ r_spec r = SpHandler s /\ h_name h = [] /\ forall o, configured b r o ->
    (exists cf, config_source cf = o /\ resolve_location s cf (b_shared b) = Ok (h_location h) /\ h_timeout h = resolve_timeout s cf (b_shared b) /\ h_tracing h = resolve_tracing s cf (b_shared b)).
Proof.
  intros K H Hin. apply collect_api_spec in H. destruct H as (api & hs & ws & _ & F1 & F2 & _ & ->). unfold http_handlers, ws_handlers in Hin. cbn [ac_http ac_ws] in Hin.
  assert (X : exists a at_ nr, In nr (targets b api) /\ entry b a at_ nr h).
  { rewrite in_app_iff in Hin. destruct Hin as [Hin|Hin].
    - assert (Hin' : In h hs) by (destruct hs; exact Hin). destruct (forall2_in_r _ _ _ _ F1 Hin') as (nr & H1 & H2). apply wanted_in in H1. exists a_http, (fun m => Ok (http_at m)), nr. tauto.
    - assert (Hin' : In h ws) by (destruct ws; exact Hin). destruct (forall2_in_r _ _ _ _ F2 Hin') as (nr & H1 & H2). apply wanted_in in H1. exists a_ws, (ws_at (r_spec api)), nr. tauto. }
  destruct X as (a & at_ & [n r] & T & m & p & _ & _ & D). apply select_spec in T. destruct T as [T1 (k & T2 & _)]. apply define_spec in D. destruct D as (s & l & D1 & D2 & ->). cbn in *. exists r, s. repeat split; auto. exists (config_of b r). split; [now apply config_of_spec|auto].
Qed.
Theorem C46_exact b name c h : blueprint_ok b -> collect_api_config b name = Ok c -> In h (http_handlers c ++ ws_handlers c) ->
  exists r s, In (h_handler h, r) (b_resources b) /\ r_spec r = SpHandler s /\ forall o, configured b r o ->
    (forall t, first_given [so_timeout s; bind_opt o so_timeout] (Some t) -> h_timeout h = Z.max t 3600) /\
    (first_given [so_timeout s; bind_opt o so_timeout] None -> first_given [bind_opt (b_shared b) so_timeout; Some 60%Z] (Some (h_timeout h))).
Proof.
  intros K H Hin. destruct (collected _ _ _ _ K H Hin) as (r & s & H1 & _ & H2 & _ & H3). exists r, s. split; [exact H1|]. split; [exact H2|]. intros o Co. split; destruct (H3 o Co) as (cf & <- & _ & -> & _); unfold resolve_timeout.
  - intros t F. inversion F as [? ? E|? ? F1 E|]; subst; [reflexivity|]. inversion F1 as [? ? E1|? ? F2 E1|]; subst; [reflexivity|]. inversion F2.
  - intros F. inversion F as [|? ? F1 E1|]; subst. inversion F1 as [|? ? F2 E2|]; subst. cbn [or_else option_map]. destruct (bind_opt (b_shared b) so_timeout); cbn; repeat constructor.
Qed.
(** So with a timeout of its own below an hour a handler gets an hour, and one above is not cut. *)
Theorem C46_own_refuted b name c h n r s t : blueprint_ok b -> one_config b -> collect_api_config b name = Ok c -> In h (http_handlers c ++ ws_handlers c) -> h_handler h = n -> In (n, r) (b_resources b) -> r_spec r = SpHandler s -> so_timeout s = Some t ->
  ((t < 3600)%Z -> h_timeout h = 3600%Z) /\ ((t > 3600)%Z -> h_timeout h = t).
Proof.
  intros K O H Hin E H1 H2 H3. destruct (collected _ _ _ _ K H Hin) as (r' & s' & G1 & G2 & G3 & _ & G4). subst n. assert (r' = r) by (destruct K as [K _]; eapply map_ok_eq; eauto). subst r'. assert (s' = s) by congruence. subst s'.
  destruct (O _ _ G1 G2) as [o Co]. destruct (G4 o Co) as (cf & _ & _ & -> & _). unfold resolve_timeout. rewrite H3. cbn. unfold max_timeout. lia.
Qed.

(** C47: location and tracing come from the first that gives them. *)
Theorem C47_first b name c h : blueprint_ok b -> collect_api_config b name = Ok c -> In h (http_handlers c ++ ws_handlers c) -> exists r, In (h_handler h, r) (b_resources b) /\ defined b (h_handler h) r h.
Proof.
  intros K H Hin. destruct (collected _ _ _ _ K H Hin) as (r & s & H1 & _ & H2 & _ & H3). exists r. split; [exact H1|]. split; [reflexivity|]. exists s. split; [exact H2|]. intros o Co. destruct (H3 o Co) as (cf & <- & H4 & _ & ->).
  split; [now apply location_spec|apply tracing_spec].
Qed.

(** The whole API is traced when its spec says so. *)
Theorem C47_api b name c : collect_api_config b name = Ok c -> exists api, is_api b name api /\ (ac_tracing c = true <-> exists ps, r_spec api = SpApi ps (Some true)).
Proof.
  intros C. apply collect_api_spec in C. destruct C as (api & hs & ws & G & _ & _ & _ & ->). pose proof (get_api_spec b name) as GA. rewrite G in GA. exists api. split; [exact GA|]. cbn [ac_tracing]. unfold api_tracing.
  destruct (r_spec api) as [|?|ps [[|]|]|]; split; try discriminate; try (intros [? [=]]); eauto.
Qed.

(** C49 *)
Lemma api_handlers b name c : blueprint_ok b -> collect_api_config b name = Ok c -> exists api, is_api b name api /\ get_api b name = Some api /\
  (forall h, In h (http_handlers c) -> exists nr, In nr (wanted a_http (targets b api)) /\ entry b a_http (fun m => Ok (http_at m)) nr h) /\
  (forall nr, In nr (wanted a_http (targets b api)) -> exists h, In h (http_handlers c) /\ entry b a_http (fun m => Ok (http_at m)) nr h) /\
  (forall h, In h (ws_handlers c) -> exists nr, In nr (wanted a_ws (targets b api)) /\ entry b a_ws (ws_at (r_spec api)) nr h) /\
  (forall nr, In nr (wanted a_ws (targets b api)) -> exists h, In h (ws_handlers c) /\ entry b a_ws (ws_at (r_spec api)) nr h) /\
  NoDup (map h_handler (http_handlers c) ++ map h_handler (ws_handlers c)) /\
  NoDup (map fst (wanted a_http (targets b api)) ++ map fst (wanted a_ws (targets b api))).
Proof.
  intros K H. apply collect_api_spec in H. destruct H as (api & hs & ws & G & F1 & F2 & N & ->). unfold http_handlers, ws_handlers. cbn [ac_http ac_ws]. pose proof (get_api_spec b name) as GA. rewrite G in GA. exists api. split; [exact GA|]. split; [exact G|].
  replace (match (if nonempty hs then Some (hs, @nil text) else None) with Some (hs0, _) => hs0 | None => [] end) with hs by (destruct hs; reflexivity).
  replace (match (if nonempty ws then Some (ws, @nil text, default_key) else None) with Some (hs0, _, _) => hs0 | None => [] end) with ws by (destruct ws; reflexivity).
  split; [intros h Hh; eapply forall2_in_r; eauto|]. split; [intros nr Hn; eapply forall2_in_l; eauto|]. split; [intros h Hh; eapply forall2_in_r; eauto|]. split; [intros nr Hn; eapply forall2_in_l; eauto|].
  rewrite (entries_names _ _ _ _ _ F1), (entries_names _ _ _ _ _ F2). auto.
Qed.
Lemma wanted_marked b api a n r : blueprint_ok b -> In (n, r) (wanted a (targets b api)) <-> marked b api a n r.
Proof.
  intros [K R]. rewrite wanted_in. unfold targets. rewrite select_spec. cbn. unfold marked. split.
  - intros ((H1 & H2) & H3). repeat split; auto. apply (annotated_spec a (n, r)); [exact (R n r H1)|exact H3].
  - intros (H1 & H2 & H3). repeat split; auto. apply (annotated_spec a (n, r)); [exact (R n r H1)|exact H3].
Qed.
Lemma default_annotation r m a d : resource_ok r -> r_annotations r = Some m -> annotation_or r a d (with_default (find_key a m) d).
Proof.
  intros (_ & K & _) E. specialize (K m E). unfold annotation_or, has_annotation. destruct (find_key a m) as [v|] eqn:F; cbn.
  - left. exists v. split; [|destruct v as [| |[|]]; constructor]. exists m. split; [exact E|]. now apply find_key_in.
  - right. split; [|reflexivity]. intros v (m' & E' & I). assert (m' = m) by congruence. subst m'. now apply (proj1 (find_key_none a m) F v).
Qed.
Theorem C49_collected b name c : blueprint_ok b -> collect_api_config b name = Ok c -> exists api, is_api b name api /\
  (forall h, In h (http_handlers c) -> exists r, marked b api (chars "celerity.handler.http") (h_handler h) r /\ defined b (h_handler h) r h /\
     annotation_or r (chars "celerity.handler.http.method") (chars "GET") (fst (h_at h)) /\
     exists path, annotation_or r (chars "celerity.handler.http.path") (chars "/") path /\ snd (h_at h) = to_axum_path path) /\
  (forall n r, marked b api (chars "celerity.handler.http") n r -> exists h, In h (http_handlers c) /\ h_handler h = n) /\
  NoDup (map h_handler (http_handlers c)).
Proof.
  intros K H. destruct (api_handlers b name c K H) as (api & A & _ & S1 & S2 & _ & _ & N & _). exists api. split; [exact A|]. split; [|split].
  - intros h Hh. destruct (S1 h Hh) as ([n r] & W & m & p & E1 & E2 & E3). pose proof (proj1 (wanted_marked b api a_http n r K) W) as M. destruct (C47_first b name c h K H) as (r' & H1 & H2); [rewrite in_app_iff; auto|].
    apply define_spec in E3. destruct E3 as (s & l & D1 & D2 & ->). cbn in *. injection E2 as <-. exists r. split; [exact M|]. assert (r' = r) by (destruct K as [K _]; destruct M as [M _]; eapply map_ok_eq; eauto). subst r'. split; [exact H2|].
    pose proof (annotated_map _ _ _ E1) as Em. cbn in Em. assert (R : resource_ok r) by (destruct K as [_ K]; destruct M as [M _]; eapply K; eauto). split; [now apply default_annotation|]. eexists. split; [now apply (default_annotation r m)|reflexivity].
  - intros n r M. apply (wanted_marked b api a_http n r K) in M. destruct (S2 _ M) as (h & Hh & E). exists h. split; [exact Hh|]. now apply entry_name in E.
  - now apply nodup_app_l in N.
Qed.
(** Setup fails if a handler is linked twice, is marked for both kinds, or has no location. *)
Theorem C49_rejects b name api a n r : blueprint_ok b -> is_api b (Some name) api -> (a = chars "celerity.handler.http" \/ a = chars "celerity.handler.websocket") -> marked b api a n r ->
  (exists k k', k <> k' /\ touched_by k (selector api) THandler r /\ touched_by k' (selector api) THandler r) \/
  (has_annotation r (chars "celerity.handler.http") (SBool true) /\ has_annotation r (chars "celerity.handler.websocket") (SBool true)) \/
  ((exists o, configured b r o) /\ ~ located b r) ->
  collect_api_config b (Some name) = Err ApiError.
Proof.
  intros K A Ea M Bad. destruct (collect_api_err b (Some name)) as [NP NM]. pose proof (get_api_spec b (Some name)) as GA.
  destruct (collect_api_config b (Some name)) as [c|e|] eqn:C; [exfalso| |now elim NP].
  - destruct (api_handlers b _ c K C) as (api' & A' & _ & _ & S2 & _ & S4 & _ & N). assert (api' = api) by (eapply named_api; eauto). subst api'.
    destruct Bad as [(k & k' & Nk & T1 & T2)|[[X1 X2]|[[o Co] NL]]].
    + assert (W : In (n, r) (wanted a (targets b api))) by now apply wanted_marked. apply wanted_in in W. destruct W as [_ Am]. pose proof (targets_twice b api n r a k k' (proj1 M) Nk T1 T2 Am) as D. apply D. destruct Ea as [-> | ->]; [now apply nodup_app_l in N|now apply nodup_app_r in N].
    + assert (W1 : In (n, r) (wanted a_http (targets b api))) by (apply wanted_marked; [exact K|]; destruct M as (M1 & M2 & _); repeat split; auto).
      assert (W2 : In (n, r) (wanted a_ws (targets b api))) by (apply wanted_marked; [exact K|]; destruct M as (M1 & M2 & _); repeat split; auto).
      apply (in_map fst) in W1. apply (in_map fst) in W2. cbn [fst] in W1, W2. apply in_split in W1. destruct W1 as (u & v & W1). rewrite W1, <- app_assoc in N. apply nodup_app_r in N. cbn in N. inversion N as [|? ? N1 _]; subst. apply N1. rewrite in_app_iff. auto.
    + assert (W : In (n, r) (wanted a (targets b api))) by now apply wanted_marked.
      assert (E : exists p h, define b (n, r) p = Ok h) by (destruct Ea as [-> | ->]; [destruct (S2 _ W) as (h & _ & m & p & _ & _ & D)|destruct (S4 _ W) as (h & _ & m & p & _ & _ & D)]; eauto).
      destruct E as (p & h & D). apply define_spec in D. destruct D as (s & l & D1 & D2 & _). cbn in D1, D2. apply NL. exists s, o, l. split; [exact D1|]. split; [exact Co|]. apply location_spec in D2. now rewrite (config_of_spec b r o K Co) in D2.
  - destruct e; [|reflexivity]. rewrite (NM eq_refl) in GA. now apply GA in A.
Qed.
(** Otherwise it succeeds. *)
Theorem C49_accepts b name api ps tr : blueprint_ok b -> is_api b (Some name) api -> r_spec api = SpApi ps tr ->
  (forall a n r, a = chars "celerity.handler.http" \/ a = chars "celerity.handler.websocket" -> marked b api a n r ->
     (forall k k', touched_by k (selector api) THandler r -> touched_by k' (selector api) THandler r -> k = k') /\
     ~ (has_annotation r (chars "celerity.handler.http") (SBool true) /\ has_annotation r (chars "celerity.handler.websocket") (SBool true)) /\ located b r) ->
  exists c, collect_api_config b (Some name) = Ok c.
Proof.
  intros K A Sp Good. pose proof (get_api_spec b (Some name)) as GA. destruct (get_api b (Some name)) as [api'|] eqn:G; [|now apply GA in A]. assert (api' = api) by (eapply named_api; eauto). subst api'.
  assert (Ok_sel : map_ok (selector api)) by (destruct K as [_ K]; destruct A as (m & H1 & _); apply (K m api H1)).
  assert (D : forall a n r p, a = chars "celerity.handler.http" \/ a = chars "celerity.handler.websocket" -> marked b api a n r -> exists h, define b (n, r) p = Ok h).
  { intros a n r p Ea M. destruct (Good a n r Ea M) as (_ & _ & s & o & l & L1 & L2 & L3). eexists. apply define_spec. exists s, l. split; [exact L1|]. split; [|reflexivity]. apply location_spec. cbn. now rewrite (config_of_spec b r o K L2). }
  destruct (forall2_exists (entry b a_http (fun m => Ok (http_at m))) (wanted a_http (targets b api))) as [hs F1].
  { intros [n r] W. pose proof W as W'. apply wanted_in in W'. destruct W' as [_ [m Em]]. apply wanted_marked in W; [|exact K]. destruct (D a_http n r (http_at m) (or_introl eq_refl) W) as [h Dh]. exists h, m, (http_at m). auto. }
  destruct (forall2_exists (entry b a_ws (ws_at (r_spec api))) (wanted a_ws (targets b api))) as [ws F2].
  { intros [n r] W. pose proof W as W'. apply wanted_in in W'. destruct W' as [_ [m Em]]. apply wanted_marked in W; [|exact K]. unfold ws_at, route_key. rewrite Sp.
    match goal with |- exists h, entry _ _ ?f _ h => assert (exists p, f m = Ok p) as [p Hp] by (eexists; reflexivity) end. destruct (D a_ws n r p (or_intror eq_refl) W) as [h Dh]. exists h, m, p. auto. }
  eexists. apply collect_api_spec. exists api, hs, ws. split; [exact G|]. split; [exact F1|]. split; [exact F2|]. split; [|reflexivity]. apply nodup_app.
  - apply targets_once; auto. intros n r W k k'. apply (Good a_http n r); [now left|now apply wanted_marked].
  - apply targets_once; auto. intros n r W k k'. apply (Good a_ws n r); [now right|now apply wanted_marked].
  - intros n X1 X2. apply in_map_iff in X1. destruct X1 as ((n1 & r1) & E1 & X1). apply in_map_iff in X2. destruct X2 as ((n2 & r2) & E2 & X2). cbn in E1, E2. subst n1 n2. apply wanted_marked in X1; [|exact K]. apply wanted_marked in X2; [|exact K].
    assert (r2 = r1) by (destruct K as [K _]; destruct X1 as [X1 _], X2 as [X2 _]; eapply map_ok_eq; eauto). subst r2. destruct (Good a_http n r1 (or_introl eq_refl) X1) as (_ & N & _). apply N. split; [apply X1|apply X2].
Qed.

(** C48: the segments of a path are converted one by one. *)
Theorem C48_segments ps qs t : path_of ps t -> Forall segment ps -> Forall2 converts ps qs -> path_of qs (to_axum_path t).
Proof.
  intros P S F. unfold to_axum_path. rewrite (split_path _ _ P S). replace (map axum_part ps) with qs; [apply join_path; inversion P; subst; inversion F; discriminate|].
  clear - F. induction F as [|p q ps qs H F IH]; [reflexivity|]. apply axum_part_spec in H. cbn. congruence.
Qed.
(** Every path consists of segments, and each is converted in one way. *)
Theorem C48_total t : exists ps qs, path_of ps t /\ Forall segment ps /\ Forall2 converts ps qs.
Proof.
  destruct (split_is_path t) as [P S]. exists (split_slash t), (map axum_part (split_slash t)). repeat split; auto. clear. induction (split_slash t); cbn; constructor; auto. now apply axum_part_spec.
Qed.
Theorem C48_one_way p q q' : converts p q -> converts p q' -> q = q'.
Proof. rewrite !axum_part_spec. congruence. Qed.
(** Two paths without literal segments that begin with ":" or "*" are converted to different
    routes. *)
Definition plain (p : text) : Prop := forall u, p <> chars ":" ++ u /\ p <> chars "*" ++ u.
Theorem C48_injective ps ps' t t' : path_of ps t -> path_of ps' t' -> Forall segment ps -> Forall segment ps' -> Forall plain ps -> Forall plain ps' -> to_axum_path t = to_axum_path t' -> t = t'.
Proof.
  intros P P' S S' L L'. unfold to_axum_path. rewrite (split_path _ _ P S), (split_path _ _ P' S'). intros E.
  assert (SA : forall p, segment p -> segment (axum_part p)).
  { intros p Hp. assert (C : converts p (axum_part p)) by now apply axum_part_spec. destruct C as [n|n N|p0 N]; unfold segment in *.
    - intros [X|X]; [discriminate|]. apply Hp. cbn. right. apply in_or_app. now left.
    - intros [X|X]; [discriminate|]. apply Hp. cbn. right. apply in_or_app. now left.
    - exact Hp. }
  assert (M : map axum_part ps = map axum_part ps').
  { transitivity (split_slash (join_slash (map axum_part ps))); [symmetry; apply split_path; [apply join_path, map_nil_iff; inversion P; discriminate|rewrite Forall_forall in *; intros x Hx; apply in_map_iff in Hx; destruct Hx as (y & <- & Hy); auto]|].
    rewrite E. apply split_path; [apply join_path, map_nil_iff; inversion P'; discriminate|rewrite Forall_forall in *; intros x Hx; apply in_map_iff in Hx; destruct Hx as (y & <- & Hy); auto]. }
  assert (I : forall p p', plain p -> plain p' -> axum_part p = axum_part p' -> p = p').
  { intros p p' Hp Hp' X. assert (C : converts p (axum_part p)) by now apply axum_part_spec. assert (C' : converts p' (axum_part p')) by now apply axum_part_spec. rewrite <- X in C'. clear X. revert C'.
    destruct C as [n|n N|p0 N]; intros C'; inversion C' as [n' E1 E2|n' N' E1 E2|p0' N' E1 E2]; subst; try discriminate; try (cbn in E2; injection E2 as ->; reflexivity); auto.
    - now destruct (Hp' n).
    - now destruct (Hp' n).
    - destruct (Hp n'). congruence.
    - destruct (Hp n'). congruence. }
  assert (ps = ps').
  { clear - M I L L'. revert ps' M L'. induction L as [|p ps Hp L IH]; intros [|p' ps'] M L'; try discriminate; [reflexivity|]. cbn in M. injection M as M1 M2. inversion L'; subst. f_equal; auto. }
  subst ps'. clear - P P'. revert t' P'. induction P as [p|p ps t P IH]; intros t' P'; inversion P' as [? E1 E2|? ? t1 P1 E1 E2]; subst; auto; try (now inversion P1); try (now inversion P). now rewrite (IH t1 P1).
Qed.

(** C50: with handlers of both kinds setup always fails; with one kind it does not. *)
Theorem C50_hybrid_refuted b name api n r n' r' health : blueprint_ok b -> is_api b (Some name) api -> marked b api (chars "celerity.handler.http") n r -> marked b api (chars "celerity.handler.websocket") n' r' ->
  setup b (Some name) health = Err ApiError.
Proof.
  intros K A M M'. destruct (collect_api_err b (Some name)) as [NP NM]. pose proof (get_api_spec b (Some name)) as GA. unfold setup. destruct (collect_api_config b (Some name)) as [c|e|] eqn:C; [| |now elim NP].
  - destruct (api_handlers b _ c K C) as (api' & A' & _ & _ & S2 & _ & S4 & _). assert (api' = api) by (eapply named_api; eauto). subst api'.
    apply (wanted_marked b api a_http n r K) in M. apply (wanted_marked b api a_ws n' r' K) in M'. destruct (S2 _ M) as (h & Hh & _), (S4 _ M') as (h' & Hh' & _).
    apply collect_api_spec in C. destruct C as (a0 & hs & ws & _ & _ & _ & _ & ->). unfold http_handlers, ws_handlers in *. cbn [ac_http ac_ws] in *. destruct hs as [|h0 hs]; [destruct Hh|]. destruct ws as [|w0 ws]; [destruct Hh'|]. reflexivity.
  - destruct e; [|reflexivity]. rewrite (NM eq_refl) in GA. now apply GA in A.
Qed.
Theorem C50_single b name c health : collect_api_config b name = Ok c -> http_handlers c = [] \/ ws_handlers c = [] -> exists sv, setup b name health = Ok (mk_app (Some c) (Some sv)) /\ (sv_health sv = true <-> health = false) /\ (sv_ws sv = None <-> ws_handlers c = []).
Proof.
  intros C H. unfold setup. rewrite C. apply collect_api_spec in C. destruct C as (a0 & hs & ws & _ & _ & _ & _ & ->). unfold http_handlers, ws_handlers in H. cbn [ac_http ac_ws] in H. unfold setup_server. cbn [ac_ws]. unfold ws_handlers. cbn [ac_ws]. destruct hs as [|h hs], ws as [|w ws]; cbn; try (destruct H; discriminate); eexists; (split; [reflexivity|]); cbn; destruct health; split; split; intros X; try discriminate X; reflexivity.
Qed.

(** C74: the handlers of a WebSocket API are collected once, with the key of the API's spec; the
    server itself looks for "event" whatever the spec says. *)
Theorem C74_handlers b name c : blueprint_ok b -> collect_api_config b name = Ok c -> exists api, is_api b name api /\
  (forall h, In h (ws_handlers c) -> exists r ps t, marked b api (chars "celerity.handler.websocket") (h_handler h) r /\ defined b (h_handler h) r h /\ r_spec api = SpApi ps t /\
     (forall qs k rest, ps = qs ++ PWebSocketConfig (Some k) :: rest -> (forall k', ~ In (PWebSocketConfig k') qs) -> fst (h_at h) = k) /\
     (forall qs rest, ps = qs ++ PWebSocketConfig None :: rest -> (forall k', ~ In (PWebSocketConfig k') qs) -> fst (h_at h) = chars "event") /\
     ((forall k, ~ In (PWebSocketConfig k) ps) -> fst (h_at h) = chars "event") /\
     annotation_or r (chars "celerity.handler.websocket.route") (chars "$default") (snd (h_at h))) /\
  (forall n r, marked b api (chars "celerity.handler.websocket") n r -> exists h, In h (ws_handlers c) /\ h_handler h = n) /\
  NoDup (map h_handler (ws_handlers c)).
Proof.
  intros K H. destruct (api_handlers b name c K H) as (api & A & _ & _ & _ & S1 & S2 & N & _). exists api. split; [exact A|]. split; [|split].
  - intros h Hh. destruct (S1 h Hh) as ([n r] & W & m & p & E1 & E2 & E3). pose proof (proj1 (wanted_marked b api a_ws n r K) W) as M. destruct (C47_first b name c h K H) as (r' & H1 & H2); [rewrite in_app_iff; auto|].
    unfold ws_at, route_key in E2. destruct (r_spec api) as [|?|ps t|] eqn:Sp; try discriminate. injection E2 as <-. apply define_spec in E3. destruct E3 as (s0 & l & D1 & D2 & ->). cbn in *. exists r, ps, t. split; [exact M|]. assert (r' = r) by (destruct K as [K _]; destruct M as [M _]; eapply map_ok_eq; eauto). subst r'. split; [exact H2|]. split; [reflexivity|].
    split; [|split; [|split]].
    + intros qs k rest -> Nq. replace (find is_ws_config (qs ++ PWebSocketConfig (Some k) :: rest)) with (Some (PWebSocketConfig (Some k))); [reflexivity|]. clear - Nq. induction qs as [|q qs IH]; [reflexivity|]. cbn. destruct q as [| |k']; [apply IH; intros k' X; apply (Nq k'); now right|apply IH; intros k' X; apply (Nq k'); now right|elim (Nq k'); now left].
    + intros qs rest -> Nq. replace (find is_ws_config (qs ++ PWebSocketConfig None :: rest)) with (Some (PWebSocketConfig None)); [reflexivity|]. clear - Nq. induction qs as [|q qs IH]; [reflexivity|]. cbn. destruct q as [| |k']; [apply IH; intros k' X; apply (Nq k'); now right|apply IH; intros k' X; apply (Nq k'); now right|elim (Nq k'); now left].
    + intros Nk. replace (find is_ws_config ps) with (@None protocol); [reflexivity|]. symmetry. destruct (find is_ws_config ps) as [q|] eqn:F; [|reflexivity]. apply find_some in F. destruct F as [F1 F2]. destruct q as [| |k']; try discriminate. now elim (Nk k').
    + pose proof (annotated_map _ _ _ E1) as Em. cbn in Em. apply (default_annotation r m); [|exact Em]. destruct K as [_ K]; destruct M as [M _]; eapply K; eauto.
  - intros n r M. apply (wanted_marked b api a_ws n r K) in M. destruct (S2 _ M) as (h & Hh & E). exists h. split; [exact Hh|]. now apply entry_name in E.
  - now apply nodup_app_r in N.
Qed.
Theorem C74_key_refuted b name health c sv p key routes : setup b name health = Ok (mk_app (Some c) (Some sv)) -> sv_ws sv = Some (p, key, routes) -> key = chars "event".
Proof.
  unfold setup. destruct (collect_api_config b name) as [c0|[|]|] eqn:C; try discriminate. apply collect_api_spec in C. destruct C as (a0 & hs & ws & _ & _ & _ & _ & ->). unfold setup_server. cbn [ac_ws]. destruct hs as [|h hs], ws as [|w ws]; cbn; try discriminate.
  - intros [= <- <-]. discriminate.
  - intros [= <- <-]. cbn. now intros [= <- <- <-].
  - intros [= <- <-]. discriminate.
Qed.

(** C75: no handler of a WebSocket API that was set up is ever called. *)
Theorem C75_called_refuted b name health c sv p key routes parse tr s : setup b name health = Ok (mk_app (Some c) (Some sv)) -> sv_ws sv = Some (p, key, routes) ->
  WsModel.run parse key (fun r => existsb (text_eqb r) routes) WsModel.init tr s -> forall k call, ~ In (WsModel.ECall k call) tr.
Proof.
  intros S W R k call Hin. assert (routes = []).
  { revert S W. unfold setup. destruct (collect_api_config b name) as [c0|[|]|] eqn:C; try discriminate. unfold setup_server. destruct (ac_ws c0) as [[[? ?] ?]|]; [destruct (websocket_base_path c0 l0); try discriminate|]; intros [= <- <-]; [|discriminate]. now intros [= _ _ <-]. }
  subst routes. apply in_split in Hin. destruct Hin as (u & v & ->). destruct (WsProps.C43_call _ _ _ _ _ _ _ _ R) as (_ & _ & _ & _ & X). discriminate X.
Qed.
(** What is set up when there is WebSocket: a server at "/" *)
Theorem C75_server_at b name health c sv p key routes : setup b name health = Ok (mk_app (Some c) (Some sv)) -> sv_ws sv = Some (p, key, routes) -> p = chars "/" /\ ws_handlers c <> [].
Proof.
  unfold setup. destruct (collect_api_config b name) as [c0|[|]|] eqn:C; try discriminate. apply collect_api_spec in C. destruct C as (a0 & hs & ws & _ & _ & _ & _ & ->). unfold setup_server. cbn [ac_ws]. destruct hs as [|h hs], ws as [|w ws]; cbn; try discriminate.
  - intros [= <- <-]. discriminate.
  - intros [= <- <-]. cbn. intros [= <- <- <-]. split; [reflexivity|discriminate].
  - intros [= <- <-]. discriminate.
Qed.

(** C76: with a named API and at most one handler config per handler, the order in which hash
    maps are iterated does not matter; *)
Theorem C76_order b b' name c : same_blueprint b b' -> blueprint_ok b -> blueprint_ok b' -> one_config b -> collect_api_config b (Some name) = Ok c ->
  exists c', collect_api_config b' (Some name) = Ok c' /\ Permutation (http_handlers c) (http_handlers c') /\ Permutation (ws_handlers c) (ws_handlers c') /\ ac_tracing c = ac_tracing c'.
Proof.
  intros B K K' O H. apply collect_api_spec in H. destruct H as (api & hs & ws & G & F1 & F2 & N & ->). pose proof (get_api_spec b (Some name)) as A. rewrite G in A.
  destruct (same_is_api _ _ _ _ B A) as [api1 A1]. pose proof (get_api_spec b' (Some name)) as A'. destruct (get_api b' (Some name)) as [api'|] eqn:G'; [|now apply A' in A1]. clear api1 A1.
  pose proof (same_api _ _ _ _ _ B K' A A') as S. pose proof (same_targets _ _ _ _ B S) as T.
  assert (R : forall y, In y (targets b' api') -> resource_ok (snd y)) by (intros [n r] Y; apply select_spec in Y; destruct K' as [_ K']; eapply K'; apply Y).
  assert (Cf : forall a x, In x (wanted a (targets b api)) -> exists o, configured b (snd x) o).
  { intros a [n r] X. apply wanted_in in X. destruct X as [X _]. apply select_spec in X. destruct X as (X & k & Y & _). now apply (O n r). }
  assert (W : forall a, eqv same_entry (wanted a (targets b api)) (wanted a (targets b' api'))) by (intros a; now apply same_wanted).
  assert (Rw : forall a y, In y (wanted a (targets b' api')) -> resource_ok (snd y)) by (intros a y Y; apply wanted_in in Y; now apply R).
  destruct (same_entries b b' a_http (fun m => Ok (http_at m)) (fun m => Ok (http_at m)) _ _ hs B K K' (Cf a_http) (Rw a_http)) with (2 := W a_http) (3 := F1) as (hs' & P1 & F1').
  { intros m m' Km P. unfold http_at. now rewrite !(with_default_perm _ _ m m' Km P). }
  destruct (same_entries b b' a_ws (ws_at (r_spec api)) (ws_at (r_spec api')) _ _ ws B K K' (Cf a_ws) (Rw a_ws)) with (2 := W a_ws) (3 := F2) as (ws' & P2 & F2').
  { intros m m' Km P. unfold ws_at. destruct S as (_ & <- & _). now rewrite !(with_default_perm _ _ m m' Km P). }
  exists (mk_api (if nonempty hs' then Some (hs', []) else None) (if nonempty ws' then Some (ws', [], default_key) else None) (api_tracing (r_spec api'))). split; [|split; [|split]].
  - apply collect_api_spec. exists api', hs', ws'. split; [exact G'|]. split; [exact F1'|]. split; [exact F2'|]. split; [|reflexivity]. eapply Permutation_NoDup; [|exact N].
    apply Permutation_app; (eapply eqv_map; [|apply W]; intros x y [X _]; exact X).
  - unfold http_handlers. cbn [ac_http]. destruct hs, hs'; cbn; auto.
  - unfold ws_handlers. cbn [ac_ws]. destruct ws, ws'; cbn; auto.
  - cbn. destruct S as (_ & <- & _). reflexivity.
Qed.

(** C77: an API that is named and does not exist is not an error. *)
Theorem C77_missing_refuted b name health : (forall r, ~ is_api b name r) -> setup b name health = Ok (mk_app None None).
Proof. intros N. unfold setup, collect_api_config. pose proof (get_api_spec b name) as A. destruct (get_api b name) as [r|]; [now apply N in A|reflexivity]. Qed.
Theorem C77_found b name health api a : is_api b name api -> setup b name health = Ok a -> exists c sv, a = mk_app (Some c) (Some sv).
Proof.
  intros A S. pose proof (get_api_spec b name) as G. unfold setup in S. destruct (collect_api_err b name) as [_ NM]. destruct (collect_api_config b name) as [c|[|]|]; try discriminate.
  - destruct (setup_server c health) as [sv|e|]; try discriminate. injection S as <-. eauto.
  - rewrite (NM eq_refl) in G. now apply G in A.
Qed.

(** C78: the name given to the handlers executable is empty for every handler. *)
Theorem C78_name_refuted b name c h : blueprint_ok b -> collect_api_config b name = Ok c -> In h (http_handlers c ++ ws_handlers c) -> h_name h = [].
Proof. intros K H Hin. destruct (collected _ _ _ _ K H Hin) as (r & s & _ & _ & _ & N & _). exact N. Qed.

(** Examples *)
Definition label k v : option (list (text * text)) := Some [(chars k, chars v)].
Definition src l t tr := mk_source l t tr.
Definition ex_api ps := mk_resource TApi None None (SpApi ps (Some true)) (label "app" "orders").
Definition ex_other_api := mk_resource TApi None None (SpApi [PHttp] None) None.
Definition ex_handler v sel ann s := mk_resource THandler (label "app" v) (Some ann) (SpHandler s) sel.
Definition ex_http := [(chars "celerity.handler.http", SBool true); (chars "celerity.handler.http.method", SStr (chars "PUT")); (chars "celerity.handler.http.path", SStr (chars "/orders/{id}"))].
Definition ex_ws := [(chars "celerity.handler.websocket", SBool true)].
Definition ex_config l := mk_resource THandlerConfig (label "cfg" "one") None (SpHandlerConfig (src (Some (chars l)) (Some 30%Z) None)) None.
Definition ex_b := mk_blueprint
  [(chars "api", ex_api [PHttp]); (chars "put", ex_handler "orders" (label "cfg" "one") ex_http (src None None (Some true)));
   (chars "other", ex_handler "invoices" None ex_http (src (Some (chars "x")) (Some 4000%Z) None)); (chars "config", ex_config "code")] (Some (src None (Some 10%Z) None)).
Definition ex_ws_b := mk_blueprint [(chars "api", ex_api [PWebSocketConfig (Some (chars "action"))]); (chars "chat", ex_handler "orders" None ex_ws (src (Some (chars "code")) None None))] None.
Definition ex_two := mk_blueprint [(chars "api", ex_api [PHttp; PWebSocketConfig (Some (chars "action"))]); (chars "chat", ex_handler "orders" None ex_ws (src (Some (chars "code")) None None)); (chars "put", ex_handler "orders" None ex_http (src (Some (chars "code")) None None))] None.
Definition ex_c := match collect_api_config ex_b (Some (chars "api")) with Ok c => c | _ => mk_api None None false end.

Ltac by_cases := repeat match goal with
  | H : In _ (_ :: _) |- _ => destruct H as [H|H]
  | H : In _ [] |- _ => destruct H
  | H : _ = (_, _) \/ _ |- _ => destruct H as [H|H]
  | H : False |- _ => destruct H
  | H : (_, _) = (_, _) |- _ => injection H as ? ?; subst
  end.
Ltac nd := unfold map_ok; cbn [map fst selector r_selector label ex_api ex_handler ex_config ex_other_api b_resources ex_b ex_ws_b ex_two rev app]; repeat (apply NoDup_cons; [intros X; cbn in X; intuition discriminate|]); apply NoDup_nil.
Ltac good := split; [nd|intros n r H; cbn in H; by_cases; repeat split; try (intros m [= <-]); nd].
Lemma ex_good : blueprint_ok ex_b.
Proof. good. Qed.
Lemma ex_ws_good : blueprint_ok ex_ws_b.
Proof. good. Qed.
Lemma ex_two_good : blueprint_ok ex_two.
Proof. good. Qed.
Lemma label_in v k' v' : has_label v k' v' -> forall k x, r_labels v = Some [(k, x)] -> k' = k /\ v' = x.
Proof. intros (m & E & H) k x E'. assert (m = [(k, x)]) by congruence. subst m. destruct H as [[= <- <-]|[]]. auto. Qed.
Lemma ex_one : one_config ex_b.
Proof.
  intros n r H T. cbn in H. by_cases; try discriminate.
  - exists (Some (src (Some (chars "code")) (Some 30%Z) None)), (chars "config"), (ex_config "code"). split; [cbn; tauto|]. split; [|split; [reflexivity|]].
    + exists (chars "cfg"). repeat split; [eexists; now left|]. exists (chars "one"). eexists. split; [reflexivity|now left].
    + intros n' c' H (k & K & _). cbn in H. by_cases; try discriminate. reflexivity.
  - exists None. intros n c H (k & K & (v & []) & _).
Qed.
Example C45_nonvacuous :
  (In (nth 1 (b_resources ex_b) (chars "", ex_api [])) (select_resources (Some [(chars "app", chars "orders")]) ex_b THandler) /\ linked [(chars "app", chars "orders")] THandler (snd (nth 1 (b_resources ex_b) (chars "", ex_api [])))) /\
  (In (nth 2 (b_resources ex_b) (chars "", ex_api [])) (select_resources (Some [(chars "app", chars "orders")]) ex_b THandler) /\ ~ linked [(chars "app", chars "orders")] THandler (snd (nth 2 (b_resources ex_b) (chars "", ex_api [])))).
Proof.
  split.
  - assert (L : linked [(chars "app", chars "orders")] THandler (snd (nth 1 (b_resources ex_b) (chars "", ex_api [])))).
    { split; [reflexivity|]. intros k v [[= <- <-]|[]]. eexists. split; [reflexivity|now left]. }
    split; [apply C45_complete; [discriminate|cbn; tauto|exact L]|exact L].
  - apply C45_value_refuted with (k := chars "app") (v := chars "orders") (v' := chars "invoices"); try reflexivity; [cbn; tauto| |now left| |discriminate].
    + apply (proj2 ex_good (chars "other")). cbn. tauto.
    + eexists. split; [reflexivity|now left].
Qed.
Example C46_nonvacuous : collect_api_config ex_b (Some (chars "api")) = Ok ex_c /\ map h_timeout (http_handlers ex_c) = [3600%Z; 4000%Z].
Proof. split; vm_compute; reflexivity. Qed.
Example C47_nonvacuous : map h_location (http_handlers ex_c) = [chars "code"; chars "x"] /\ map h_tracing (http_handlers ex_c) = [true; false].
Proof. split; vm_compute; reflexivity. Qed.
Example C48_nonvacuous : path_of [chars ""; chars "orders"; chars "{id}"; chars "{rest+}"] (chars "/orders/{id}/{rest+}") /\ Forall2 converts [chars ""; chars "orders"; chars "{id}"; chars "{rest+}"] [chars ""; chars "orders"; chars ":id"; chars "*rest"] /\ to_axum_path (chars "/orders/{id}/{rest+}") = chars "/orders/:id/*rest".
Proof.
  split; [|split; [|vm_compute; reflexivity]].
  - apply (path_more (chars "")), (path_more (chars "orders")), (path_more (chars "{id}")), path_one.
  - repeat (apply Forall2_cons; [apply axum_part_spec; reflexivity|]). apply Forall2_nil.
Qed.
Example C49_nonvacuous : map (fun h => (h_handler h, h_at h)) (http_handlers ex_c) = [(chars "put", (chars "PUT", chars "/orders/:id")); (chars "other", (chars "PUT", chars "/orders/:id"))] /\ is_api ex_b (Some (chars "api")) (ex_api [PHttp]).
Proof. split; [vm_compute; reflexivity|]. exists (chars "api"). repeat split; [cbn; tauto|]. now intros m [= <-]. Qed.
Example C50_nonvacuous : setup ex_two (Some (chars "api")) false = Err ApiError /\ exists a, setup ex_b (Some (chars "api")) false = Ok a.
Proof.
  split; [|vm_compute; eexists; reflexivity]. pose (api := ex_api [PHttp; PWebSocketConfig (Some (chars "action"))]).
  assert (T : forall ann s, touched (selector api) THandler (ex_handler "orders" None ann s)).
  { intros ann s. exists (chars "app"). repeat split; [eexists; now left|]. exists (chars "orders"). eexists. split; [reflexivity|now left]. }
  eapply C50_hybrid_refuted with (api := api) (n := chars "put") (n' := chars "chat"); [exact ex_two_good| | |].
  - exists (chars "api"). repeat split; [cbn; tauto|]. now intros m [= <-].
  - split; [right; right; left; reflexivity|]. split; [apply T|]. eexists. split; [reflexivity|now left].
  - split; [right; left; reflexivity|]. split; [apply T|]. eexists. split; [reflexivity|now left].
Qed.
Example C74_nonvacuous : exists c sv, setup ex_ws_b (Some (chars "api")) false = Ok (mk_app (Some c) (Some sv)) /\ sv_ws sv = Some (chars "/", chars "event", []) /\ map h_at (ws_handlers c) = [(chars "action", chars "$default")].
Proof. do 2 eexists. split; [vm_compute; reflexivity|]. split; vm_compute; reflexivity. Qed.

(** C76 fails without a name, and with two handler configs for one handler. *)
Theorem C76_unnamed_refuted : exists b b', same_blueprint b b' /\ blueprint_ok b /\ blueprint_ok b' /\ one_config b /\ exists c c', collect_api_config b None = Ok c /\ collect_api_config b' None = Ok c' /\
  http_handlers c <> [] /\ http_handlers c' = [].
Proof.
  pose (h := ex_handler "orders" None ex_http (src (Some (chars "code")) None None)).
  exists (mk_blueprint [(chars "api", ex_api [PHttp]); (chars "put", h); (chars "admin", ex_other_api)] None), (mk_blueprint [(chars "admin", ex_other_api); (chars "put", h); (chars "api", ex_api [PHttp])] None).
  assert (SR : forall r, same_resource r r) by (intros r; repeat split; unfold same_map; match goal with |- context [match ?o with _ => _ end] => destruct o; auto end).
  split; [|split; [good|split; [good|split]]].
  - split; [reflexivity|]. eexists. split; [|repeat (constructor; [split; [reflexivity|apply SR]|]); constructor]. apply NoDup_Permutation; [nd|nd|intros x; cbn; tauto].
  - intros n r H T. cbn in H. by_cases; try discriminate. exists None. intros n c H (k & K & (v & []) & _).
  - do 2 eexists. split; [vm_compute; reflexivity|]. split; [vm_compute; reflexivity|]. split; [discriminate|reflexivity].
Qed.
Theorem C76_configs_refuted : exists b b' name, same_blueprint b b' /\ blueprint_ok b /\ blueprint_ok b' /\ exists c c', collect_api_config b (Some name) = Ok c /\ collect_api_config b' (Some name) = Ok c' /\
  map h_location (http_handlers c) = [chars "one"] /\ map h_location (http_handlers c') = [chars "two"].
Proof.
  pose (h := ex_handler "orders" (label "cfg" "one") ex_http (src None None None)).
  exists (mk_blueprint [(chars "api", ex_api [PHttp]); (chars "put", h); (chars "c1", ex_config "one"); (chars "c2", ex_config "two")] None), (mk_blueprint [(chars "api", ex_api [PHttp]); (chars "put", h); (chars "c2", ex_config "two"); (chars "c1", ex_config "one")] None), (chars "api").
  assert (SR : forall r, same_resource r r) by (intros r; repeat split; unfold same_map; match goal with |- context [match ?o with _ => _ end] => destruct o; auto end).
  split; [|split; [good|split; [good|]]].
  - split; [reflexivity|]. eexists. split; [|repeat (constructor; [split; [reflexivity|apply SR]|]); constructor]. apply NoDup_Permutation; [nd|nd|intros x; cbn; tauto].
  - do 2 eexists. split; [vm_compute; reflexivity|]. split; [vm_compute; reflexivity|]. split; reflexivity.
Qed.
Example C76_nonvacuous : exists b', same_blueprint ex_b b' /\ blueprint_ok b' /\ b' <> ex_b /\ one_config ex_b /\ blueprint_ok ex_b.
Proof.
  exists (mk_blueprint (rev (b_resources ex_b)) (b_shared ex_b)). split; [|split; [good|split; [discriminate|split; [exact ex_one|exact ex_good]]]].
  assert (SR : forall r, same_resource r r) by (intros r; repeat split; unfold same_map; match goal with |- context [match ?o with _ => _ end] => destruct o; auto end).
  split; [reflexivity|]. eexists. split; [apply Permutation_rev|]. cbn [b_resources]. induction (rev (b_resources ex_b)); constructor; auto.
Qed.
Example C77_nonvacuous : setup ex_b (Some (chars "typo")) false = Ok (mk_app None None).
Proof. reflexivity. Qed.
Example C78_nonvacuous : map (fun h => (h_handler h, h_name h)) (http_handlers ex_c) = [(chars "put", []); (chars "other", [])].
Proof. vm_compute. reflexivity. Qed.
Lemma ex_touched ps ann s sel : touched (selector (ex_api ps)) THandler (ex_handler "orders" sel ann s).
Proof. exists (chars "app"). repeat split; [eexists; now left|]. exists (chars "orders"). eexists. split; [reflexivity|now left]. Qed.
Example C49_rejects_nonvacuous : collect_api_config (mk_blueprint [(chars "api", ex_api [PHttp]); (chars "put", ex_handler "orders" None ex_http (src None (Some 1%Z) None))] None) (Some (chars "api")) = Err ApiError.
Proof.
  eapply C49_rejects with (api := ex_api [PHttp]) (n := chars "put") (a := chars "celerity.handler.http"); [good| |now left| |].
  - exists (chars "api"). repeat split; [cbn; tauto|]. now intros m [= <-].
  - split; [right; left; reflexivity|]. split; [apply ex_touched|]. eexists. split; [reflexivity|now left].
  - right. right. split; [exists None; intros n c H (k & K & (v & []) & _)|]. intros (s & o & l & [= <-] & Co & F). destruct o as [o|].
    + destruct Co as (n & c & _ & (k & _ & (v & []) & _) & _).
    + cbn in F. inversion F as [|? ? F1 E1|]; subst. inversion F1 as [|? ? F2 E2|]; subst. inversion F2 as [|? ? F3 E3|]; subst. inversion F3.
Qed.
Example C49_accepts_nonvacuous : exists c, collect_api_config ex_ws_b (Some (chars "api")) = Ok c.
Proof.
  eapply C49_accepts with (api := ex_api [PWebSocketConfig (Some (chars "action"))]); [exact ex_ws_good| |reflexivity|].
  - exists (chars "api"). repeat split; [cbn; tauto|]. now intros m [= <-].
  - intros a n r _ (H & (k0 & T & _) & _). cbn in H. by_cases; try discriminate. split; [|split].
    + intros k k' (_ & (v & [[= <- <-]|[]]) & _) (_ & (v' & [[= <- <-]|[]]) & _). reflexivity.
    + intros [(m & [= <-] & [H|[]]) _]. discriminate.
    + eexists _, None, (chars "code"). split; [reflexivity|]. split; [|apply first_here]. intros n c H (k & K & (v & []) & _).
Qed.
Local Tactic Notation "go" ident(X) uconstr(k) :=
  let Y := fresh "Y" in
  match type of X with WsModel.run ?p ?q ?r ?s0 ?tr ?s => eassert (Y : WsModel.step p q r s _ _); [eapply k; try reflexivity; try discriminate|] end;
  apply (WsModel.R_step _ _ _ _ _ _ _ _ X) in Y; clear X; rename Y into X.
Example C75_nonvacuous : exists s, WsModel.run WsProps.p0 (chars "event") (fun r => existsb (text_eqb r) []) WsModel.init [WsModel.EOpen 0 (chars "x"); WsModel.EFrame 0 WsProps.hello; WsModel.EFrame 0 WsModel.FClose; WsModel.EEnd 0] s.
Proof.
  assert (X := WsModel.R_refl WsProps.p0 (chars "event") (fun r => existsb (text_eqb r) []) WsModel.init).
  go X (WsModel.S_open _ _ _ _ (chars "x")). go X (WsModel.S_add _ _ _ _ 0). go X (WsModel.S_ask _ _ _ _ 0). go X (WsModel.S_lock _ _ _ _ 0). go X (WsModel.S_skip _ _ _ _ 0 WsProps.hello).
  go X (WsModel.S_ask _ _ _ _ 0). go X (WsModel.S_lock _ _ _ _ 0). go X (WsModel.S_break _ _ _ _ 0 WsModel.FClose).
  eexists. exact X.
Qed.
Print Assumptions C45_exact.
Print Assumptions C45_complete.
Print Assumptions C45_no_selector.
Print Assumptions C45_value_refuted.
Print Assumptions C45_every_refuted.
Print Assumptions C46_exact.
Print Assumptions C46_own_refuted.
Print Assumptions C47_first.
Print Assumptions C47_api.
Print Assumptions C49_collected.
Print Assumptions C49_rejects.
Print Assumptions C49_accepts.
Print Assumptions C48_segments.
Print Assumptions C48_total.
Print Assumptions C48_one_way.
Print Assumptions C48_injective.
Print Assumptions C50_hybrid_refuted.
Print Assumptions C50_single.
Print Assumptions C74_handlers.
Print Assumptions C74_key_refuted.
Print Assumptions C75_called_refuted.
Print Assumptions C75_server_at.
Print Assumptions C76_order.
Print Assumptions C77_missing_refuted.
Print Assumptions C77_found.
Print Assumptions C78_name_refuted.
Print Assumptions C76_unnamed_refuted.
Print Assumptions C76_configs_refuted.
