(** Lemmas for the properties of application setup *)
From Verif Require Import Base Chars ApiModel ApiSpec.
From Coq Require Import Permutation.
Local Open Scope list_scope.

(** Maps *)
Lemma find_key_in {A} k (m : list (text * A)) v : find_key k m = Some v -> In (k, v) m.
Proof. induction m as [|[k' v'] m IH]; cbn; [discriminate|]. destruct (text_eqb k k') eqn:E; [apply text_eqb_eq in E; subst; intros [= ->]; auto|auto]. Qed.
Lemma find_key_some {A} k (m : list (text * A)) v : In (k, v) m -> exists v', find_key k m = Some v'.
Proof. induction m as [|[k' v'] m IH]; cbn; [contradiction|]. destruct (text_eqb k k') eqn:E; [eauto|]. intros [[= -> ->]|H]; [rewrite (proj2 (text_eqb_eq k k) eq_refl) in E; discriminate|auto]. Qed.
Lemma map_ok_eq {A} (m : list (text * A)) k v v' : map_ok m -> In (k, v) m -> In (k, v') m -> v = v'.
Proof.
  unfold map_ok. induction m as [|[k0 v0] m IH]; cbn; [contradiction|]. intros N [H|H] [H'|H']; inversion N; subst; try congruence; auto.
  - injection H as -> ->. elim H2. apply in_map_iff. now exists (k, v').
  - injection H' as -> ->. elim H2. apply in_map_iff. now exists (k, v).
Qed.
Lemma find_key_spec {A} k (m : list (text * A)) v : map_ok m -> find_key k m = Some v <-> In (k, v) m.
Proof.
  intros N. split; [apply find_key_in|]. intros H. destruct (find_key_some _ _ _ H) as [v' E]. rewrite E. f_equal. apply (map_ok_eq m k v' v); auto. now apply find_key_in.
Qed.
Lemma find_key_none {A} k (m : list (text * A)) : find_key k m = None <-> forall v, ~ In (k, v) m.
Proof.
  split; [intros E v H; destruct (find_key_some _ _ _ H); congruence|]. intros N. destruct (find_key k m) eqn:E; [|reflexivity]. apply find_key_in in E. now apply N in E.
Qed.
Lemma map_ok_perm {A} (m m' : list (text * A)) : Permutation m m' -> map_ok m -> map_ok m'.
Proof. intros P. apply Permutation_NoDup. now apply Permutation_map. Qed.
Lemma find_key_perm {A} k (m m' : list (text * A)) : map_ok m -> Permutation m m' -> find_key k m' = find_key k m.
Proof.
  intros N P. destruct (find_key k m) eqn:E.
  - apply find_key_spec; [eapply map_ok_perm; eauto|]. eapply Permutation_in; [exact P|]. now apply find_key_in.
  - apply find_key_none. intros v H. apply (proj1 (find_key_none k m) E v). eapply Permutation_in; [apply Permutation_sym; exact P|exact H].
Qed.
Lemma rtype_eqb_eq a b : rtype_eqb a b = true <-> a = b.
Proof. destruct a, b; cbn; split; congruence. Qed.

(** Selection *)
Lemma matches_spec k v t r : matches k v t r = true <-> r_type r = t /\ exists v', has_label r k v'.
Proof.
  unfold matches, has_label. destruct (r_labels r) as [ls|]; [|split; [discriminate|intros (_ & v' & ls & [=] & _)]].
  destruct (find_key k ls) as [v'|] eqn:E; cbn.
  - rewrite rtype_eqb_eq. split; [intros ->; split; [reflexivity|]; exists v', ls; split; [reflexivity|]; now apply find_key_in|tauto].
  - split; [discriminate|]. intros (_ & v' & ls' & [= <-] & H). apply (proj1 (find_key_none k ls) E) in H. contradiction.
Qed.
Lemma select_spec r0 b t nr : In nr (select_resources (r_selector r0) b t) <-> In nr (b_resources b) /\ touched (selector r0) t (snd nr).
Proof.
  unfold select_resources, touched, touched_by, selector. destruct (r_selector r0) as [sel|]; cbn; [|split; [contradiction|intros (_ & k & _ & (v & []) & _)]].
  rewrite in_flat_map. split.
  - intros ((k & v) & H1 & H2). apply filter_In in H2. destruct H2 as [H2 H3]. apply matches_spec in H3. cbn in H3. destruct H3 as [H3 H4]. split; [exact H2|]. exists k. eauto.
  - intros (H1 & k & H2 & (v & H3) & H4). exists (k, v). split; [exact H3|]. apply filter_In. split; [exact H1|]. apply matches_spec. auto.
Qed.
Lemma select_none sel b t : r_selector sel = None -> select_resources (r_selector sel) b t = [].
Proof. intros ->. reflexivity. Qed.

(** First given *)
Lemma first_given_or3 {A} (a b c : option A) o : first_given [a; b; c] o <-> or_else a (or_else b c) = o.
Proof.
  split.
  - intros H. repeat match goal with X : first_given _ _ |- _ => inversion X; clear X; subst end; reflexivity.
  - intros <-. destruct a, b, c; cbn; repeat constructor.
Qed.
Lemma location_spec s c sh l : resolve_location s c sh = Ok l <-> first_given [so_location s; bind_opt (config_source c) so_location; bind_opt sh so_location] (Some l).
Proof. unfold resolve_location. rewrite first_given_or3. destruct (or_else (so_location s) _); split; try discriminate; congruence. Qed.
Lemma location_not_panic s c sh : resolve_location s c sh <> Panic /\ resolve_location s c sh <> Err ApiMissing.
Proof. unfold resolve_location. destruct (or_else (so_location s) _); split; discriminate. Qed.
Lemma tracing_spec s c sh : resolve_tracing s c sh = true <-> first_given [so_tracing s; bind_opt (config_source c) so_tracing; bind_opt sh so_tracing] (Some true).
Proof. unfold resolve_tracing. rewrite first_given_or3. destruct (or_else (so_tracing s) _) as [[|]|]; split; try discriminate; congruence. Qed.

(** The handler config *)
Definition config_of (b : blueprint) (r : resource) : option (text * resource) := hd_error (select_resources (r_selector r) b THandlerConfig).
Lemma config_of_spec b r o : blueprint_ok b -> configured b r o -> config_source (config_of b r) = o.
Proof.
  intros [N _] C. unfold config_of. destruct (select_resources (r_selector r) b THandlerConfig) as [|[n c] l] eqn:E; cbn.
  - destruct o as [s|]; [|reflexivity]. destruct C as (n & c & H1 & H2 & _). assert (X : In (n, c) []) by (rewrite <- E; apply select_spec; auto). destruct X.
  - assert (X : In (n, c) ((n, c) :: l)) by now left. rewrite <- E in X. apply select_spec in X. destruct X as [X1 X2]. cbn in X2. destruct o as [s|].
    + destruct C as (n' & c' & H1 & H2 & H3 & H4). assert (n = n') by (eapply H4; eauto). subst n'. assert (c = c') by (eapply map_ok_eq; eauto). subst c'. now rewrite H3.
    + now apply C in X1.
Qed.

Lemma nodup_app_l {A} (l r : list A) : NoDup (l ++ r) -> NoDup l.
Proof. induction l as [|a l IH]; cbn; intros N; [constructor|]. inversion N; subst. constructor; [rewrite in_app_iff in H1; tauto|auto]. Qed.
Lemma nodup_app_r {A} (l r : list A) : NoDup (l ++ r) -> NoDup r.
Proof. induction l as [|a l IH]; cbn; intros N; [exact N|]. inversion N; subst. auto. Qed.
(** Collecting *)
Definition wanted (a : text) (ts : list (text * resource)) : list (text * resource) := filter (fun nr => match annotated a nr with Some _ => true | None => false end) ts.
Definition entry (b : blueprint) (a : text) (at_ : list (text * scalar) -> outcome cerr (text * text)) (nr : text * resource) (h : handler) : Prop :=
  exists m p, annotated a nr = Some m /\ at_ m = Ok p /\ define b nr p = Ok h.
Lemma annotated_spec a nr : resource_ok (snd nr) -> (exists m, annotated a nr = Some m) <-> has_annotation (snd nr) a (SBool true).
Proof.
  intros (_ & R & _). unfold annotated, has_annotation. destruct (r_annotations (snd nr)) as [m|]; [|split; [intros [m [=]]|intros (m & [=] & _)]]. specialize (R m eq_refl). split.
  - intros [m' H]. destruct (find_key a m) as [[t|t|[|]]|] eqn:E; try discriminate. injection H as <-. exists m. split; [reflexivity|]. now apply find_key_in.
  - intros (m' & [= <-] & H). apply (find_key_spec a m _ R) in H. rewrite H. eauto.
Qed.
Lemma annotated_map a nr m : annotated a nr = Some m -> r_annotations (snd nr) = Some m.
Proof. unfold annotated. destruct (r_annotations (snd nr)) as [m0|]; [|discriminate]. destruct (find_key a m0) as [[t|t|[|]]|]; try discriminate. congruence. Qed.
Lemma wanted_in a ts nr : In nr (wanted a ts) <-> In nr ts /\ exists m, annotated a nr = Some m.
Proof. unfold wanted. rewrite filter_In. destruct (annotated a nr); split; intros [H1 H2]; split; auto; try discriminate; [eauto|destruct H2; discriminate]. Qed.
Lemma existsb_in n seen : existsb (text_eqb n) seen = true <-> In n seen.
Proof. rewrite existsb_exists. split; [intros (x & H & E); apply text_eqb_eq in E; now subst|]. intros H. exists n. split; [exact H|]. now apply text_eqb_eq. Qed.
Lemma collect_spec b a at_ ts : forall seen hs seen', collect b a at_ ts seen = Ok (hs, seen') <->
  Forall2 (entry b a at_) (wanted a ts) hs /\ NoDup (map fst (wanted a ts)) /\ (forall n, In n seen -> ~ In n (map fst (wanted a ts))) /\ seen' = seen ++ map fst (wanted a ts).
Proof.
  induction ts as [|nr ts IH]; intros seen hs seen'; cbn [collect wanted filter].
  - cbn. rewrite app_nil_r. split; [intros [= <- <-]; repeat split; auto; constructor|]. intros (H & _ & _ & ->). inversion H. reflexivity.
  - fold (wanted a ts). destruct (annotated a nr) as [m|] eqn:A; [|apply IH]. cbn [map].
    destruct (existsb (text_eqb (fst nr)) seen) eqn:X.
    { split; [discriminate|]. intros (_ & _ & H & _). apply existsb_in in X. elim (H _ X). now left. }
    assert (Nx : ~ In (fst nr) seen) by (rewrite <- existsb_in, X; discriminate).
    split.
    + destruct (at_ m) as [p|e|] eqn:P; try discriminate. destruct (define b nr p) as [h|e|] eqn:D; try discriminate. destruct (collect b a at_ ts (seen ++ [fst nr])) as [[hs1 s1]|e|] eqn:C; try discriminate.
      intros [= <- <-]. apply IH in C. destruct C as (C1 & C2 & C3 & ->). split; [constructor; [exists m, p; auto|exact C1]|]. split; [|split].
      * constructor; [|exact C2]. apply C3. rewrite in_app_iff. right. now left.
      * intros n Hn [E|E]; [now subst|]. apply (C3 n); [rewrite in_app_iff; auto|exact E].
      * now rewrite <- app_assoc.
    + intros (F & N & D & ->). inversion F as [|? h ? hs1 (m' & p & E1 & E2 & E3) F1]; subst. rewrite A in E1. injection E1 as <-. rewrite E2, E3. inversion N as [|? ? N1 N2]; subst.
      assert (C : collect b a at_ ts (seen ++ [fst nr]) = Ok (hs1, (seen ++ [fst nr]) ++ map fst (wanted a ts))).
      { apply IH. repeat split; auto. intros n Hn E. rewrite in_app_iff in Hn. destruct Hn as [Hn|[<-|[]]]; [|now apply N1]. apply (D n Hn). now right. }
      rewrite C, <- app_assoc. reflexivity.
Qed.
Lemma define_spec b nr p h : define b nr p = Ok h <-> exists s l, r_spec (snd nr) = SpHandler s /\ resolve_location s (config_of b (snd nr)) (b_shared b) = Ok l /\
  h = mk_handler [] (fst nr) p l (resolve_timeout s (config_of b (snd nr)) (b_shared b)) (resolve_tracing s (config_of b (snd nr)) (b_shared b)).
Proof.
  unfold define. fold (config_of b (snd nr)). destruct (r_spec (snd nr)); try (split; [discriminate|intros (s' & l & [=] & _)]). split.
  - destruct (resolve_location s _ _) as [l|e|] eqn:E; try discriminate. intros [= <-]. eauto 10.
  - intros (s' & l & [= <-] & -> & ->). reflexivity.
Qed.
Lemma define_err b nr p : define b nr p <> Panic /\ define b nr p <> Err ApiMissing.
Proof. unfold define. destruct (r_spec (snd nr)); try (split; discriminate). pose proof (location_not_panic s (hd_error (select_resources (r_selector (snd nr)) b THandlerConfig)) (b_shared b)). destruct (resolve_location s _ _) as [l|e|]; [split; discriminate| |tauto]. split; [discriminate|]. intros [= ->]. tauto. Qed.
Lemma collect_err b a at_ ts : (forall m, at_ m <> Panic /\ at_ m <> Err ApiMissing) -> forall seen, collect b a at_ ts seen <> Panic /\ collect b a at_ ts seen <> Err ApiMissing.
Proof.
  intros HA. induction ts as [|nr ts IH]; intros seen; cbn [collect]; [split; discriminate|]. destruct (annotated a nr) as [m|]; [|apply IH].
  destruct (existsb (text_eqb (fst nr)) seen); [split; discriminate|]. destruct (at_ m) as [p|e|] eqn:E; [|destruct (HA m) as [_ X]; rewrite E in X; split; [discriminate|congruence]|destruct (HA m); congruence].
  destruct (define_err b nr p) as [D1 D2]. destruct (define b nr p) as [h|e|]; [|split; [discriminate|congruence]|congruence].
  destruct (IH (seen ++ [fst nr])) as [I1 I2]. destruct (collect b a at_ ts (seen ++ [fst nr])) as [[hs s1]|e|]; [split; discriminate|split; [discriminate|congruence]|congruence].
Qed.

(** The API *)
Lemma get_api_spec b name : match get_api b name with Some r => is_api b name r | None => forall r, ~ is_api b name r end.
Proof.
  unfold get_api. destruct (find _ (b_resources b)) as [[n r]|] eqn:E; cbn.
  - apply find_some in E. destruct E as [E1 E2]. exists n. split; [exact E1|]. cbn in E2. destruct name as [m|].
    + apply andb_true_iff in E2. destruct E2 as [E2 E3]. apply text_eqb_eq in E2. apply rtype_eqb_eq in E3. split; [exact E3|]. congruence.
    + apply rtype_eqb_eq in E2. split; [exact E2|discriminate].
  - intros r (n & H1 & H2 & H3). apply (find_none _ _ E) in H1. cbn in H1. destruct name as [m|].
    + rewrite (H3 m eq_refl) in H1. rewrite (proj2 (text_eqb_eq n n) eq_refl) in H1. cbn in H1. apply rtype_eqb_eq in H2. congruence.
    + apply rtype_eqb_eq in H2. congruence.
Qed.
Lemma named_api b n r r' : blueprint_ok b -> is_api b (Some n) r -> is_api b (Some n) r' -> r = r'.
Proof.
  intros [N _] (m & H1 & _ & H2) (m' & H1' & _ & H2'). rewrite <- (H2 n eq_refl) in *. rewrite <- (H2' n eq_refl) in *. eapply map_ok_eq; eauto.
Qed.
Definition ws_at (s : spec) (m : list (text * scalar)) : outcome cerr (text * text) :=
  match route_key s with Ok k => Ok (k, with_default (find_key a_route m) (chars "$default")) | Err e => Err e | Panic => Panic end.
Definition targets (b : blueprint) (api : resource) : list (text * resource) := select_resources (r_selector api) b THandler.
Lemma collect_api_spec b name c : collect_api_config b name = Ok c <-> exists api hs ws, get_api b name = Some api /\
  Forall2 (entry b a_http (fun m => Ok (http_at m))) (wanted a_http (targets b api)) hs /\
  Forall2 (entry b a_ws (ws_at (r_spec api))) (wanted a_ws (targets b api)) ws /\
  NoDup (map fst (wanted a_http (targets b api)) ++ map fst (wanted a_ws (targets b api))) /\
  c = mk_api (if nonempty hs then Some (hs, []) else None) (if nonempty ws then Some (ws, [], default_key) else None) (api_tracing (r_spec api)).
Proof.
  unfold collect_api_config. destruct (get_api b name) as [api|]; [|split; [discriminate|intros (api & hs & ws & [=] & _)]]. fold (targets b api). unfold collect_http, collect_ws. fold (ws_at (r_spec api)). split.
  - destruct (collect b a_http _ _ []) as [[hs seen]|e|] eqn:E1; try discriminate. destruct (collect b a_ws _ _ seen) as [[ws seen2]|e|] eqn:E2; try discriminate. intros [= <-].
    apply collect_spec in E1. destruct E1 as (F1 & N1 & _ & ->). apply collect_spec in E2. destruct E2 as (F2 & N2 & D & _). exists api, hs, ws. repeat split; auto.
    cbn [app] in D. clear - N1 N2 D. revert N1 D. generalize (map fst (wanted a_http (targets b api))) as l0. intros l0 N1 D. induction l0 as [|n l IH]; [exact N2|]. inversion N1; subst. cbn. constructor; [|apply IH; auto; intros n' H; apply D; now right].
    rewrite in_app_iff. intros [H|H]; [auto|]. apply (D n); [now left|exact H].
  - intros (api' & hs & ws & [= <-] & F1 & F2 & N & ->).
    assert (N1 : NoDup (map fst (wanted a_http (targets b api)))) by (eapply nodup_app_l; exact N). assert (N2 : NoDup (map fst (wanted a_ws (targets b api)))) by (eapply nodup_app_r; exact N).
    assert (D : forall n, In n (map fst (wanted a_http (targets b api))) -> ~ In n (map fst (wanted a_ws (targets b api)))).
    { clear - N. revert N. generalize (map fst (wanted a_http (targets b api))) as l0. intros l0 N. induction l0 as [|n l IH]; [intros ? []|]. inversion N; subst. intros n' [<-|H]; [intros X; apply H1; rewrite in_app_iff; auto|auto]. }
    replace (collect b a_http (fun m => Ok (http_at m)) (targets b api) []) with (Ok (E := cerr) (hs, [] ++ map fst (wanted a_http (targets b api)))) by (symmetry; apply collect_spec; repeat split; auto).
    replace (collect b a_ws (ws_at (r_spec api)) (targets b api) ([] ++ map fst (wanted a_http (targets b api)))) with (Ok (E := cerr) (ws, ([] ++ map fst (wanted a_http (targets b api))) ++ map fst (wanted a_ws (targets b api)))) by (symmetry; apply collect_spec; repeat split; auto).
    reflexivity.
Qed.
Lemma ws_at_err s m : ws_at s m <> Panic /\ ws_at s m <> Err ApiMissing.
Proof. unfold ws_at, route_key. destruct s; split; discriminate. Qed.
Lemma collect_api_err b name : collect_api_config b name <> Panic /\ (collect_api_config b name = Err ApiMissing -> get_api b name = None).
Proof.
  unfold collect_api_config. destruct (get_api b name) as [api|]; [|split; [discriminate|auto]]. unfold collect_http, collect_ws. fold (ws_at (r_spec api)).
  destruct (collect_err b a_http (fun m => Ok (http_at m)) (select_resources (r_selector api) b THandler) ltac:(intros ?; split; discriminate) []) as [A1 A2].
  destruct (collect b a_http _ _ []) as [[hs seen]|e|]; [|split; [discriminate|congruence]|congruence].
  destruct (collect_err b a_ws (ws_at (r_spec api)) (select_resources (r_selector api) b THandler) (ws_at_err _) seen) as [B1 B2].
  destruct (collect b a_ws _ _ seen) as [[ws seen2]|e|]; [split; discriminate|split; [discriminate|congruence]|congruence].
Qed.

(** Handlers that are selected twice, and those that are not *)
Lemma flat_map_twice {A B C} (f : A -> list B) (p : B -> bool) (g : B -> C) l x y a : In x l -> In y l -> x <> y -> In a (f x) -> In a (f y) -> p a = true -> ~ NoDup (map g (filter p (flat_map f l))).
Proof.
  intros Hx Hy N Ax Ay P D. induction l as [|z l IH]; [destruct Hx|]. cbn in D. rewrite filter_app, map_app in D.
  assert (K : forall w, In w l -> In a (f w) -> In a (f z) -> False).
  { intros w Hw Aw Az. assert (X1 : In (g a) (map g (filter p (f z)))) by (apply in_map, filter_In; auto).
    assert (X2 : In (g a) (map g (filter p (flat_map f l)))) by (apply in_map, filter_In; split; [apply in_flat_map; eauto|exact P]).
    apply in_split in X1. destruct X1 as (u & v & X1). rewrite X1, <- app_assoc in D. apply nodup_app_r in D. cbn in D. inversion D as [|? ? D1 _]; subst. apply D1. rewrite in_app_iff. auto. }
  destruct Hx as [->|Hx], Hy as [->|Hy]; [contradiction|now apply (K y)|now apply (K x)|apply IH; auto; now apply nodup_app_r in D].
Qed.
Lemma targets_twice b api n r a k k' : In (n, r) (b_resources b) -> k <> k' -> touched_by k (selector api) THandler r -> touched_by k' (selector api) THandler r -> (exists m, annotated a (n, r) = Some m) ->
  ~ NoDup (map fst (wanted a (targets b api))).
Proof.
  intros H N (T1 & (v & S1) & L1) (T2 & (v' & S2) & L2) [m A]. unfold targets, select_resources, selector in *. destruct (r_selector api) as [sel|]; [|destruct S1].
  apply (flat_map_twice _ _ fst sel (k, v) (k', v') (n, r)); auto; try congruence; try (apply filter_In; split; [exact H|apply matches_spec; auto]). now rewrite A.
Qed.
Lemma nodup_filter {A B} (g : A -> B) p l : NoDup (map g l) -> NoDup (map g (filter p l)).
Proof.
  induction l as [|a l IH]; cbn; intros N; [constructor|]. inversion N; subst. destruct (p a); cbn; [|auto]. constructor; [|auto]. intros X. apply H1. apply in_map_iff in X. destruct X as (y & E & X). apply filter_In in X. rewrite <- E. apply in_map. tauto.
Qed.
Lemma nodup_app {A} (l r : list A) : NoDup l -> NoDup r -> (forall a, In a l -> ~ In a r) -> NoDup (l ++ r).
Proof.
  induction l as [|a l IH]; cbn; intros N1 N2 D; [exact N2|]. inversion N1; subst. constructor; [|apply IH; auto]. rewrite in_app_iff. intros [X|X]; [auto|]. apply (D a); auto.
Qed.
Lemma targets_once b api a : blueprint_ok b -> map_ok (selector api) ->
  (forall n r, In (n, r) (wanted a (targets b api)) -> forall k k', touched_by k (selector api) THandler r -> touched_by k' (selector api) THandler r -> k = k') ->
  NoDup (map fst (wanted a (targets b api))).
Proof.
  intros [N _]. unfold targets, select_resources, selector. destruct (r_selector api) as [sel|]; [|intros _ _; constructor].
  intros S U. assert (U' : forall n r, In (n, r) (b_resources b) -> (exists m, annotated a (n, r) = Some m) -> forall k k', touched_by k sel THandler r -> touched_by k' sel THandler r -> k = k').
  { intros n r H M k k' K K'. apply (U n r); auto. apply wanted_in. split; [|exact M]. apply in_flat_map. destruct K as (T & (v & K) & L). exists (k, v). split; [exact K|]. apply filter_In. split; [exact H|]. apply matches_spec. auto. }
  clear U. assert (G : forall l, incl l sel -> map_ok l -> NoDup (map fst (wanted a (flat_map (fun kv => filter (fun nr => matches (fst kv) (snd kv) THandler (snd nr)) (b_resources b)) l)))).
  { induction l as [|[k v] l IH]; intros I M; cbn; [constructor|]. unfold wanted. rewrite filter_app, map_app. inversion M as [|? ? M1 M2]; subst. apply nodup_app.
    - now do 2 apply nodup_filter.
    - apply IH; [intros x Hx; apply I; now right|exact M2].
    - intros n X1 X2. apply in_map_iff in X1. destruct X1 as ((n1 & r1) & <- & X1). apply in_map_iff in X2. destruct X2 as ((n2 & r2) & E & X2). cbn in E. subst n2.
      fold (wanted a (filter (fun nr => matches k v THandler (snd nr)) (b_resources b))) in X1. apply wanted_in in X1. destruct X1 as [X1 A1]. apply filter_In in X1. destruct X1 as [X1 M3].
      change (In (n1, r2) (wanted a (flat_map (fun kv => filter (fun nr => matches (fst kv) (snd kv) THandler (snd nr)) (b_resources b)) l))) in X2. apply wanted_in in X2. destruct X2 as [X2 A2]. apply in_flat_map in X2. destruct X2 as ((k2 & v2) & X2 & X3). apply filter_In in X3. destruct X3 as [X3 M4].
      assert (r1 = r2) by (eapply map_ok_eq; eauto). subst r2. cbn in M4, M3. apply matches_spec in M3. apply matches_spec in M4. destruct M3 as [T3 L3], M4 as [T4 L4].
      assert (k = k2). { apply (U' n1 r1 X1 A1); split; auto; split; auto; [exists v; apply I; now left|exists v2; apply I; now right]. }
      subst k2. apply M1. apply in_map_iff. now exists (k, v2). }
  apply G; [apply incl_refl|exact S].
Qed.
Lemma forall2_exists {A B} (R : A -> B -> Prop) l : (forall a, In a l -> exists b, R a b) -> exists l', Forall2 R l l'.
Proof. induction l as [|a l IH]; intros H; [eauto|]. destruct (H a) as [b' Hb]; [now left|]. destruct IH as [l' Hl]; [intros x Hx; apply H; now right|]. exists (b' :: l'). now constructor. Qed.
Lemma forall2_in_l {A B} (R : A -> B -> Prop) l l' a : Forall2 R l l' -> In a l -> exists b, In b l' /\ R a b.
Proof. induction 1 as [|x y l l' H F IH]; [contradiction|]. intros [<-|Hin]; [exists y; split; [now left|exact H]|]. destruct (IH Hin) as (b & H1 & H2). exists b. split; [now right|exact H2]. Qed.
Lemma forall2_in_r {A B} (R : A -> B -> Prop) l l' b : Forall2 R l l' -> In b l' -> exists a, In a l /\ R a b.
Proof. induction 1 as [|x y l l' H F IH]; [contradiction|]. intros [<-|Hin]; [exists x; split; [now left|exact H]|]. destruct (IH Hin) as (a & H1 & H2). exists a. split; [now right|exact H2]. Qed.
Lemma entry_name b a at_ nr h : entry b a at_ nr h -> h_handler h = fst nr.
Proof. intros (m & p & _ & _ & D). apply define_spec in D. destruct D as (s & l & _ & _ & ->). reflexivity. Qed.
Lemma entries_names b a at_ l hs : Forall2 (entry b a at_) l hs -> map h_handler hs = map fst l.
Proof. induction 1 as [|x y l l' H F IH]; cbn; [reflexivity|]. apply entry_name in H. now rewrite H, IH. Qed.

(** Paths *)
Lemma strip_last_spec c t u : strip_last c t = Some u <-> t = u ++ [c].
Proof.
  unfold strip_last. destruct (rev t) as [|c' r] eqn:E.
  - split; [discriminate|]. intros ->. rewrite rev_app_distr in E. discriminate.
  - assert (t = rev r ++ [c']) by (rewrite <- (rev_involutive t), E; reflexivity). subst t. destruct (N.eqb_spec c' c) as [->|N].
    + split; [intros [= <-]; reflexivity|]. intros H. apply app_inj_tail in H. destruct H as [-> _]. reflexivity.
    + split; [discriminate|]. intros H. apply app_inj_tail in H. destruct H as [_ H]. contradiction.
Qed.
Lemma strip_last_none c t : strip_last c t = None <-> forall u, t <> u ++ [c].
Proof.
  split; [intros E u ->|intros H; destruct (strip_last c t) eqn:E; [apply strip_last_spec in E; now apply H in E|reflexivity]]. assert (X : strip_last c (u ++ [c]) = Some u) by now apply strip_last_spec. congruence.
Qed.
Lemma axum_part_spec p q : converts p q <-> axum_part p = q.
Proof.
  split.
  - intros [n|n H|p' H].
    + change (axum_part (123%N :: n ++ [43; 125]%N) = 42%N :: n). unfold axum_part. cbn [c_open N.eqb Pos.eqb]. replace (123 =? c_open)%N with true by reflexivity.
      replace (strip_last c_close (n ++ [43; 125]%N)) with (Some (n ++ [43%N])) by (symmetry; apply strip_last_spec; now rewrite <- app_assoc).
      replace (strip_last c_plus (n ++ [43%N])) with (Some n) by (symmetry; now apply strip_last_spec). reflexivity.
    + change (axum_part (123%N :: n ++ [125]%N) = 58%N :: n). unfold axum_part. replace (123 =? c_open)%N with true by reflexivity.
      replace (strip_last c_close (n ++ [125]%N)) with (Some n) by (symmetry; now apply strip_last_spec).
      replace (strip_last c_plus n) with (@None text) by (symmetry; now apply strip_last_none). reflexivity.
    + destruct p' as [|c p']; [reflexivity|]. cbn. destruct (N.eqb_spec c c_open) as [->|N]; [|reflexivity]. destruct (strip_last c_close p') as [inner|] eqn:E; [|reflexivity]. apply strip_last_spec in E. subst p'. elim (H inner). reflexivity.
  - intros <-. destruct p as [|c p]; [constructor; intros n X; discriminate X|]. cbn. destruct (N.eqb_spec c c_open) as [->|N].
    + destruct (strip_last c_close p) as [inner|] eqn:E.
      * apply strip_last_spec in E. subst p. destruct (strip_last c_plus inner) as [n|] eqn:E2.
        -- apply strip_last_spec in E2. subst inner. rewrite <- app_assoc. apply (conv_wild n).
        -- apply (conv_param inner). now apply strip_last_none.
      * constructor. intros n X. cbn in X. injection X as X. now apply (proj1 (strip_last_none c_close p) E) in X.
    + constructor. intros n X. cbn in X. injection X as X _. contradiction.
Qed.
Lemma split_nonempty t : split_slash t <> [].
Proof. destruct t as [|c t]; cbn; [discriminate|]. destruct (c =? slash)%N; [discriminate|]. destruct (split_slash t); discriminate. Qed.
Lemma split_segment p : segment p -> split_slash p = [p].
Proof. induction p as [|c p IH]; intros S; [reflexivity|]. cbn. destruct (N.eqb_spec c slash) as [->|N]; [elim S; now left|]. rewrite IH by (intros X; apply S; now right). reflexivity. Qed.
Lemma split_more p t : segment p -> split_slash (p ++ slash :: t) = p :: split_slash t.
Proof. induction p as [|c p IH]; intros S; [reflexivity|]. cbn. destruct (N.eqb_spec c slash) as [->|N]; [elim S; now left|]. rewrite IH by (intros X; apply S; now right). reflexivity. Qed.
Lemma split_path ps t : path_of ps t -> Forall segment ps -> split_slash t = ps.
Proof. induction 1 as [p|p ps t H IH]; intros F; inversion F; subst; [now apply split_segment|]. change (p ++ chars "/" ++ t) with (p ++ slash :: t). rewrite split_more by assumption. now rewrite IH. Qed.
Lemma join_path ps : ps <> [] -> path_of ps (join_slash ps).
Proof. induction ps as [|p ps IH]; intros N; [contradiction|]. destruct ps as [|q ps]; [constructor|]. cbn [join_slash]. apply (path_more p (q :: ps)). apply IH. discriminate. Qed.
Lemma split_is_path t : path_of (split_slash t) t /\ Forall segment (split_slash t).
Proof.
  induction t as [|c t [IH1 IH2]]; cbn; [split; [constructor|repeat constructor; intros []]|]. destruct (N.eqb_spec c slash) as [->|N].
  - split; [apply (path_more [] _ t IH1)|constructor; [intros []|exact IH2]].
  - pose proof (split_nonempty t). destruct (split_slash t) as [|p ps]; [contradiction|]. inversion IH2; subst. split.
    + inversion IH1; subst; [constructor|]. apply (path_more (c :: p) ps). assumption.
    + constructor; [|assumption]. intros [X|X]; [now apply N|]. now apply H2.
Qed.
Lemma map_nil_iff {A B} (f : A -> B) l : l <> [] -> map f l <> [].
Proof. destruct l; [contradiction|discriminate]. Qed.

(** Another order of iteration *)
Definition eqv {A} (R : A -> A -> Prop) (l l' : list A) : Prop := exists l0, Permutation l l0 /\ Forall2 R l0 l'.
Lemma forall2_perm {A B} (R : A -> B -> Prop) l l' m : Forall2 R l m -> Permutation l l' -> exists m', Permutation m m' /\ Forall2 R l' m'.
Proof.
  intros F P. revert m F. induction P as [|x l l' P IH|x y l|l l1 l2 P1 IH1 P2 IH2]; intros m F.
  - inversion F; subst. eauto.
  - inversion F; subst. destruct (IH _ H3) as (m' & Q & G). exists (y :: m'). split; [now constructor|now constructor].
  - inversion F; subst. inversion H3; subst. eexists. split; [apply perm_swap|]. constructor; [eassumption|constructor; assumption].
  - destruct (IH1 _ F) as (m1 & Q1 & G1). destruct (IH2 _ G1) as (m2 & Q2 & G2). exists m2. split; [now transitivity m1|exact G2].
Qed.
Lemma perm_filter {A} (p : A -> bool) l l' : Permutation l l' -> Permutation (filter p l) (filter p l').
Proof.
  induction 1 as [|x l l' P IH|x y l|l l1 l2 P1 IH1 P2 IH2]; cbn; [constructor|destruct (p x); [now constructor|exact IH]| |now transitivity (filter p l1)].
  destruct (p x), (p y); try constructor; reflexivity.
Qed.
Lemma eqv_filter {A} (R : A -> A -> Prop) (p p' : A -> bool) l l' : (forall x y, R x y -> In y l' -> p x = p' y) -> eqv R l l' -> eqv R (filter p l) (filter p' l').
Proof.
  intros H (l0 & P & F). exists (filter p l0). split; [now apply perm_filter|]. clear P. induction F as [|x y l0 l' Hxy F IH]; cbn; [constructor|]. rewrite (H x y Hxy) by now left.
  destruct (p' y); [constructor; [exact Hxy|]|]; apply IH; intros x0 y0 X Y; apply H; auto; now right.
Qed.
Lemma eqv_app {A} (R : A -> A -> Prop) a a' b b' : eqv R a a' -> eqv R b b' -> eqv R (a ++ b) (a' ++ b').
Proof. intros (x & P & F) (y & Q & G). exists (x ++ y). split; [now apply Permutation_app|now apply Forall2_app]. Qed.
Lemma eqv_perm {A} (R : A -> A -> Prop) l l1 l' : Permutation l l1 -> eqv R l1 l' -> eqv R l l'.
Proof. intros P (x & Q & F). exists x. split; [now transitivity l1|exact F]. Qed.
Lemma eqv_flat_map {A B} (R : B -> B -> Prop) (f f' : A -> list B) l : (forall a, eqv R (f a) (f' a)) -> eqv R (flat_map f l) (flat_map f' l).
Proof. intros H. induction l as [|a l IH]; cbn; [exists []; split; constructor|now apply eqv_app]. Qed.
Lemma perm_flat_map {A B} (f : A -> list B) l l' : Permutation l l' -> Permutation (flat_map f l) (flat_map f l').
Proof. apply Permutation_flat_map. Qed.
Lemma eqv_map {A B} (R : A -> A -> Prop) (g : A -> B) l l' : (forall x y, R x y -> g x = g y) -> eqv R l l' -> Permutation (map g l) (map g l').
Proof. intros H (l0 & P & F). transitivity (map g l0); [now apply Permutation_map|]. clear P. induction F as [|x y a b X F IH]; cbn; [constructor|]. rewrite (H x y X). now constructor. Qed.

Definition same_entry (x y : text * resource) : Prop := fst x = fst y /\ same_resource (snd x) (snd y).
Lemma same_label r r' k v : same_resource r r' -> has_label r k v <-> has_label r' k v.
Proof.
  intros (_ & _ & L & _). unfold has_label. destruct (r_labels r) as [m|], (r_labels r') as [m'|]; cbn in L; try contradiction; [|split; intros (? & [=] & _)].
  split; intros (x & [= <-] & H); eexists; (split; [reflexivity|]); [eapply Permutation_in; eauto|eapply Permutation_in; [apply Permutation_sym|]; eauto].
Qed.
Lemma same_selector r r' : same_resource r r' -> Permutation (selector r) (selector r').
Proof. intros (_ & _ & _ & _ & S). unfold selector. destruct (r_selector r), (r_selector r'); cbn in S; try contradiction; [exact S|constructor]. Qed.
Lemma same_touched sel sel' t r r' k : Permutation sel sel' -> same_resource r r' -> touched_by k sel t r <-> touched_by k sel' t r'.
Proof.
  intros P S. unfold touched_by. pose proof (same_label r r' k) as L. destruct S as (T & S). split; intros (H1 & (v & H2) & (v' & H3)).
  - split; [congruence|]. split; [exists v; eapply Permutation_in; eauto|]. exists v'. apply (L v'); [split; assumption|exact H3].
  - split; [congruence|]. split; [exists v; eapply Permutation_in; [apply Permutation_sym|]; eauto|]. exists v'. apply (L v'); [split; assumption|exact H3].
Qed.
Lemma same_in b b' n r : same_blueprint b b' -> In (n, r) (b_resources b) -> exists r', In (n, r') (b_resources b') /\ same_resource r r'.
Proof. intros (_ & l & P & F) H. apply (Permutation_in _ P) in H. destruct (forall2_in_l _ _ _ _ F H) as ((n' & r') & H1 & H2 & H3). cbn in *. subst n'. eauto. Qed.
Lemma same_in_back b b' n r' : same_blueprint b b' -> In (n, r') (b_resources b') -> exists r, In (n, r) (b_resources b) /\ same_resource r r'.
Proof. intros (_ & l & P & F) H. destruct (forall2_in_r _ _ _ _ F H) as ((n' & r) & H1 & H2 & H3). cbn in *. subst n'. exists r. split; [|exact H3]. eapply Permutation_in; [apply Permutation_sym; exact P|exact H1]. Qed.
Lemma same_configured b b' r r' o : same_blueprint b b' -> same_resource r r' -> configured b r o -> configured b' r' o.
Proof.
  intros B S. pose proof (same_selector _ _ S) as P. destruct o as [s|]; cbn.
  - intros (n & c & H1 & (k & H2) & H3 & H4). destruct (same_in _ _ _ _ B H1) as (c' & H1' & Sc). exists n, c'. split; [exact H1'|]. split; [exists k; now apply (same_touched _ _ _ _ _ _ P Sc)|]. split; [destruct Sc as (_ & X & _); congruence|].
    intros n' c2 H5 (k2 & H6). destruct (same_in_back _ _ _ _ B H5) as (c3 & H7 & S3). apply (H4 n' c3 H7). exists k2. now apply (same_touched _ _ _ _ _ _ P S3).
  - intros H n c H1 (k & H2). destruct (same_in_back _ _ _ _ B H1) as (c3 & H7 & S3). apply (H n c3 H7). exists k. now apply (same_touched _ _ _ _ _ _ P S3).
Qed.
Lemma same_targets b b' api api' : same_blueprint b b' -> same_resource api api' -> eqv same_entry (targets b api) (targets b' api').
Proof.
  intros B S. destruct S as (_ & _ & _ & _ & Sel). unfold targets, select_resources. destruct (r_selector api) as [s|], (r_selector api') as [s'|]; cbn in Sel; try contradiction; [|exists []; split; constructor].
  eapply eqv_perm; [apply perm_flat_map; exact Sel|]. apply eqv_flat_map. intros [k v]. apply eqv_filter; [|destruct B as (_ & B); exact B].
  intros [n r] [n' r'] [_ X] _. cbn in *. apply Bool.eq_iff_eq_true. rewrite !matches_spec. destruct (same_label r r' k) with v as [_ _]; [exact X|].
  destruct X as (T & Y). split; intros (H1 & v' & H2); (split; [congruence|]); exists v'; apply (same_label r r' k v'); auto; split; assumption.
Qed.
Lemma same_annotated a x y : same_entry x y -> resource_ok (snd y) ->
  match annotated a x, annotated a y with Some m, Some m' => Permutation m m' /\ map_ok m | None, None => True | _, _ => False end.
Proof.
  intros (_ & _ & _ & _ & An & _) (_ & K & _). unfold annotated. destruct (r_annotations (snd x)) as [m|], (r_annotations (snd y)) as [m'|]; cbn in An; try contradiction; [|exact Logic.I].
  specialize (K m' eq_refl). assert (Km : map_ok m) by (eapply map_ok_perm; [apply Permutation_sym; exact An|exact K]). rewrite (find_key_perm a m m' Km An). destruct (find_key a m) as [[t|t|[|]]|]; auto.
Qed.
Lemma same_wanted a l l' : (forall y, In y l' -> resource_ok (snd y)) -> eqv same_entry l l' -> eqv same_entry (wanted a l) (wanted a l').
Proof.
  intros K H. apply eqv_filter; [|exact H]. intros x y X Y. pose proof (same_annotated a x y X (K y Y)) as Z. destruct (annotated a x), (annotated a y); tauto.
Qed.
Lemma with_default_perm k d (m m' : list (text * scalar)) : map_ok m -> Permutation m m' -> with_default (find_key k m') d = with_default (find_key k m) d.
Proof. intros K P. now rewrite (find_key_perm k m m' K P). Qed.
Lemma same_define b b' x y p : same_blueprint b b' -> blueprint_ok b -> blueprint_ok b' -> (exists o, configured b (snd x) o) -> same_entry x y -> define b' y p = define b x p.
Proof.
  intros B K K' (o & C) [N S]. unfold define. pose proof (same_configured _ _ _ _ _ B S C) as C'. apply (config_of_spec b _ _ K) in C. apply (config_of_spec b' _ _ K') in C'. unfold config_of in *.
  destruct S as (_ & Sp & _). rewrite <- Sp, N. destruct (r_spec (snd x)); auto. destruct B as [Sh _]. rewrite <- Sh. unfold resolve_location, resolve_timeout, resolve_tracing. rewrite C, C'. reflexivity.
Qed.
Lemma same_entry_def b b' a at_ at_' x y h : same_blueprint b b' -> blueprint_ok b -> blueprint_ok b' -> (exists o, configured b (snd x) o) -> same_entry x y -> resource_ok (snd y) ->
  (forall m m', map_ok m -> Permutation m m' -> at_' m' = at_ m) -> entry b a at_ x h -> entry b' a at_' y h.
Proof.
  intros B K K' C S R At (m & p & H1 & H2 & H3). pose proof (same_annotated a x y S R) as Z. rewrite H1 in Z. destruct (annotated a y) as [m'|] eqn:E; [|contradiction]. destruct Z as [P Km].
  exists m', p. split; [exact E|]. split; [now rewrite (At m m' Km P)|]. now rewrite (same_define b b' x y p B K K' C S).
Qed.
Lemma same_entries b b' a at_ at_' l l' hs : same_blueprint b b' -> blueprint_ok b -> blueprint_ok b' -> (forall x, In x l -> exists o, configured b (snd x) o) -> (forall y, In y l' -> resource_ok (snd y)) ->
  (forall m m', map_ok m -> Permutation m m' -> at_' m' = at_ m) -> eqv same_entry l l' -> Forall2 (entry b a at_) l hs -> exists hs', Permutation hs hs' /\ Forall2 (entry b' a at_') l' hs'.
Proof.
  intros B K K' C R At (l0 & P & F) G. destruct (forall2_perm _ _ _ _ G P) as (hs' & Q & G'). exists hs'. split; [exact Q|].
  assert (C0 : forall x, In x l0 -> exists o, configured b (snd x) o) by (intros x Hx; apply C; eapply Permutation_in; [apply Permutation_sym; exact P|exact Hx]).
  clear - B K K' C0 R At F G'. revert hs' G'. induction F as [|x y l0 l' X F IH]; intros hs' G'; inversion G'; subst; constructor.
  - eapply same_entry_def; eauto; [apply C0; now left|apply R; now left].
  - apply IH; auto; intros z Z; [apply R; now right|apply C0; now right].
Qed.
Lemma same_api b b' n api api' : same_blueprint b b' -> blueprint_ok b' -> is_api b (Some n) api -> is_api b' (Some n) api' -> same_resource api api'.
Proof.
  intros B [K _] (m & H1 & _ & H2) (m' & H1' & _ & H2'). rewrite <- (H2 n eq_refl) in *. rewrite <- (H2' n eq_refl) in *. destruct (same_in _ _ _ _ B H1) as (r' & H3 & S). assert (r' = api') by (eapply map_ok_eq; eauto). now subst.
Qed.
Lemma same_is_api b b' n api : same_blueprint b b' -> is_api b (Some n) api -> exists api', is_api b' (Some n) api'.
Proof. intros B (m & H1 & T & H2). destruct (same_in _ _ _ _ B H1) as (r' & H3 & S). exists r', m. split; [exact H3|]. destruct S as (X & _). split; [congruence|exact H2]. Qed.
