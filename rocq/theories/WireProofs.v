(** Lemmas about reading and writing documents. *)
From Verif Require Import Base Json LocalApiModel ClusterModel WireModel WireSpec.
Open Scope string_scope.
Local Open Scope list_scope.

(** * Fields *)
Lemma occurs_app k a b : occurs k (a ++ b) = occurs k a + occurs k b.
Proof. unfold occurs. now rewrite filter_app, app_length. Qed.
Lemma occurs_0 k m : occurs k m = 0 <-> absent k m.
Proof.
  unfold absent, occurs. induction m as [|[k' v] m IH]; simpl; [tauto|].
  destruct (String.eqb_spec k k') as [->|n]; simpl.
  - split; [discriminate|intros H; exfalso; apply H; now left].
  - rewrite IH. split; [intros H [E|E]; [congruence|auto]|intros H E; apply H; now right].
Qed.
Lemma lookup_absent {V} k (m : smap V) : lookup k m = None <-> ~ In k (map fst m).
Proof. exact (lookup_None k m). Qed.
Lemma lookup_app {V} k (a b : smap V) : lookup k (a ++ b) = match lookup k a with Some v => Some v | None => lookup k b end.
Proof. induction a as [|[k' v] a IH]; simpl; [reflexivity|]. destruct (String.eqb k k'); auto. Qed.
Lemma once_iff k v m : (occurs k m <= 1 /\ lookup k m = Some v) <-> once k v m.
Proof.
  split.
  - intros [Ho Hl]. induction m as [|[k' w] m IH]; simpl in Hl; [discriminate|].
    destruct (String.eqb_spec k k') as [<-|n].
    + injection Hl as ->. exists [], m. split; [reflexivity|]. split; [simpl; tauto|].
      apply (occurs_0 k m). unfold occurs in *; simpl in Ho. rewrite String.eqb_refl in Ho; simpl in Ho. lia.
    + destruct IH as (a & b & -> & Ha & Hb).
      * unfold occurs in *; simpl in Ho. destruct (String.eqb_spec k k'); [congruence|exact Ho].
      * exact Hl.
      * exists ((k', w) :: a), b. split; [reflexivity|]. split; [|exact Hb].
        simpl. intros [E|E]; [congruence|auto].
  - intros (a & b & -> & Ha & Hb). split.
    + rewrite occurs_app. apply occurs_0 in Ha. apply occurs_0 in Hb. unfold occurs in *; simpl. rewrite String.eqb_refl; simpl. lia.
    + rewrite lookup_app. apply lookup_absent in Ha. rewrite Ha. simpl. now rewrite String.eqb_refl.
Qed.
Lemma absent_iff k m : (occurs k m <= 1 /\ lookup k m = None) <-> absent k m.
Proof.
  split; [intros [_ H]; now apply lookup_absent in H|].
  intros H. split; [apply occurs_0 in H; lia|now apply lookup_absent].
Qed.
Lemma member_iff k m o : (occurs k m <= 1 /\ lookup k m = o) <-> match o with Some v => once k v m | None => absent k m end.
Proof. destruct o; [apply once_iff|apply absent_iff]. Qed.
Lemma fields_says names v vs : fields names v = Some vs <-> says names v vs.
Proof.
  split.
  - destruct v; simpl; try discriminate.
    + destruct (Nat.eqb_spec (length l) (length names)) as [E|]; [|discriminate].
      intros [= <-]. now constructor.
    + destruct (forallb _ names) eqn:F; [|discriminate]. intros [= <-]. constructor.
      rewrite forallb_forall in F. induction names as [|k names IH]; simpl; constructor.
      * apply member_iff. split; [apply Nat.leb_le, F; now left|reflexivity].
      * apply IH. intros x Hx. apply F. now right.
  - intros S. destruct S as [m ws H|l E]; simpl.
    + induction H as [|k o ns os Hk H IH]; [reflexivity|]. simpl.
      apply member_iff in Hk. destruct Hk as [H1 H2]. apply Nat.leb_le in H1. rewrite H1, H2. simpl.
      destruct (forallb _ ns); [|discriminate]. now injection IH as ->.
    + now rewrite E, Nat.eqb_refl.
Qed.
Lemma says_length names v vs : says names v vs -> length vs = length names.
Proof. intros [m ws H|l E]; [symmetry; now apply Forall2_len in H|now rewrite map_length]. Qed.
Lemma says_fun names v vs ws : says names v vs -> says names v ws -> vs = ws.
Proof. rewrite <- !fields_says. congruence. Qed.

(** * Parts *)
Lemma opt_text_iff o e : opt r_str o = Some e <-> optional_text o e.
Proof.
  split.
  - destruct o as [[]|]; simpl; try discriminate; intros [= <-]; constructor.
  - now intros [].
Qed.
Lemma opt_text_fun o e e' : optional_text o e -> optional_text o e' -> e = e'.
Proof. rewrite <- !opt_text_iff. congruence. Qed.
Lemma all_strs l ss : all r_str l = Some ss <-> l = map JStr ss.
Proof.
  split.
  - revert ss. induction l as [|x l IH]; simpl; intros ss H.
    + now injection H as <-.
    + destruct x; try discriminate. simpl in H. destruct (all r_str l) as [ys|]; [|discriminate]. injection H as <-.
      simpl. f_equal. now apply IH.
  - intros ->. induction ss as [|s ss IH]; simpl; [reflexivity|]. now rewrite IH.
Qed.
Lemma opt_texts_iff o e : opt (r_list r_str) o = Some e <-> optional_texts o e.
Proof.
  split.
  - destruct o as [[]|]; simpl; try discriminate; try (intros [= <-]; constructor).
    destruct (all r_str l) as [ss|] eqn:A; [|discriminate]. intros [= <-].
    apply all_strs in A. subst l. constructor.
  - intros [| |l]; try reflexivity. simpl. assert (A : all r_str (map JStr l) = Some l) by now apply all_strs. now rewrite A.
Qed.
Lemma uint_iff bits v z : r_uint bits v = Some z <-> v = JNum (NInt z) /\ (0 <= z < 2 ^ bits)%Z.
Proof.
  split.
  - destruct v as [| |[w|]| | |]; simpl; try discriminate.
    destruct (Z.leb_spec 0 w), (Z.ltb_spec w (2 ^ bits)); simpl; try discriminate. intros [= <-]. auto.
  - intros [-> H]. simpl. destruct (Z.leb_spec 0 z), (Z.ltb_spec z (2 ^ bits)); simpl; try reflexivity; lia.
Qed.
Lemma str_iff v s : r_str v = Some s <-> v = JStr s.
Proof. destruct v; simpl; split; congruence. Qed.
Lemma bool_iff v b : r_bool v = Some b <-> v = JBool b.
Proof. destruct v; simpl; split; congruence. Qed.
Lemma req_iff {A} (f : json -> option A) o a : req f o = Some a <-> exists v, o = Some v /\ f v = Some a.
Proof.
  destruct o as [v|]; simpl; split.
  - intros H. now exists v.
  - intros (w & [= <-] & H). exact H.
  - discriminate.
  - intros (w & H & _). discriminate.
Qed.
Lemma bnd_iff {A B} (x : option A) (f : A -> option B) b : obnd x f = Some b <-> exists a, x = Some a /\ f a = Some b.
Proof.
  destruct x as [a|]; simpl; split.
  - intros H. now exists a.
  - intros (a' & [= <-] & H). exact H.
  - discriminate.
  - intros (a' & H & _). discriminate.
Qed.

(** * Maps *)
Lemma last_cons k v k' v' m :
  last_member k v ((k', v') :: m) <-> last_member k v m \/ (k = k' /\ v = v' /\ absent k m).
Proof.
  split.
  - intros (a & b & E & Hb). destruct a as [|e a]; simpl in E; injection E as E1 E2.
    + right. subst. auto.
    + left. exists a, b. auto.
  - intros [(a & b & -> & Hb)|(-> & -> & Hb)].
    + exists ((k', v') :: a), b. auto.
    + exists [], m. auto.
Qed.
Lemma last_in k v m : last_member k v m -> In k (map fst m).
Proof. intros (a & b & -> & _). rewrite map_app. apply in_or_app. right. now left. Qed.
Lemma gather_lookup m : forall r h, gather r_str m r = Some h ->
  (forall k v, In (k, v) m -> exists s, v = JStr s) /\
  (forall k s, lookup k h = Some s <-> last_member k (JStr s) m \/ (absent k m /\ lookup k r = Some s)).
Proof.
  induction m as [|[k0 v0] m IH]; simpl; intros r h H.
  - injection H as ->. split; [tauto|]. intros k s. split; [intros H; right; split; [intros []|exact H]|].
    intros [(a & b & E & _)|[_ H]]; [now destruct a|exact H].
  - destruct v0 as [| | |s0| |]; try discriminate. simpl in H.
    destruct (IH _ _ H) as [H1 H2]. split.
    + intros k v [[= <- <-]|Hin]; [now exists s0|now apply (H1 k)].
    + intros k s. rewrite H2, last_cons, lookup_insert. unfold absent. simpl.
      destruct (String.eqb_spec k k0) as [->|n].
      * split.
        -- intros [HL|[HA [= <-]]]; [left; now left|left; right; auto].
        -- intros [[HL|(_ & E & HA)]|[HA _]]; [left; exact HL|right; split; [exact HA|congruence]|].
           exfalso. apply HA. now left.
      * split.
        -- intros [HL|[HA HB]]; [left; now left|right; split; [|exact HB]]. intros [E|E]; [congruence|auto].
        -- intros [[HL|(E & _)]|[HA HB]]; [left; exact HL|congruence|right; split; [|exact HB]]. intros E. apply HA. now right.
Qed.
Lemma gather_some m : forall r, (forall k v, In (k, v) m -> exists s, v = JStr s) -> exists h, gather r_str m r = Some h.
Proof.
  induction m as [|[k0 v0] m IH]; simpl; intros r H; [now exists r|].
  destruct (H k0 v0 (or_introl eq_refl)) as (s & ->). simpl. apply IH. intros k v Hin. apply (H k). now right.
Qed.
Lemma map_texts v h : r_map r_str v = Some h -> exists m, v = JObj m /\ texts m h.
Proof.
  destruct v as [| | | | |m]; simpl; try discriminate. intros H. exists m. split; [reflexivity|].
  destruct (gather_lookup _ _ _ H) as [H1 H2]. split; [exact H1|]. intros k s. rewrite H2. simpl. split; [intros [Q|[_ Q]]; [exact Q|discriminate Q]|now left].
Qed.
Lemma texts_map m h : texts m h -> exists h', r_map r_str (JObj m) = Some h' /\ forall k, lookup k h' = lookup k h.
Proof.
  intros [H1 H2]. destruct (gather_some m [] H1) as (h' & G). exists h'. split; [exact G|].
  destruct (gather_lookup _ _ _ G) as [_ H3]. intros k.
  assert (Q : forall s, lookup k h' = Some s <-> lookup k h = Some s).
  { intros s. rewrite H2, H3. simpl. split; [intros [Q|[_ Q]]; [exact Q|discriminate Q]|now left]. }
  destruct (lookup k h') as [s|] eqn:E.
  - symmetry. now apply Q.
  - destruct (lookup k h) as [s|] eqn:E2; [|reflexivity]. destruct (Q s) as [_ Q2]. specialize (Q2 eq_refl). discriminate.
Qed.

(** * Results *)
Lemma http_reads d r : r_http d = Some r -> exists s h b, r = DHttp s h b /\ an_http_response d s h b.
Proof.
  unfold r_http. intros H. apply bnd_iff in H. destruct H as (l & Hl & H). apply fields_says in Hl.
  destruct l as [|a [|b [|c []]]]; try discriminate.
  apply bnd_iff in H. destruct H as (s & Hs & H). apply bnd_iff in H. destruct H as (h & Hh & H).
  apply bnd_iff in H. destruct H as (t & Ht & H). injection H as <-.
  apply req_iff in Hs. destruct Hs as (v & -> & Hs). apply uint_iff in Hs. destruct Hs as [-> Hs].
  apply req_iff in Hh. destruct Hh as (v & -> & Hh). apply map_texts in Hh. destruct Hh as (m & -> & Hm).
  apply req_iff in Ht. destruct Ht as (v & -> & Ht). apply str_iff in Ht. subst v.
  exists s, h, t. split; [reflexivity|]. exists m. auto.
Qed.
Lemma reads_http d s h b : an_http_response d s h b -> exists h', r_http d = Some (DHttp s h' b) /\ forall k, lookup k h' = lookup k h.
Proof.
  intros (m & H & Hs & Hm). apply fields_says in H. destruct (texts_map _ _ Hm) as (h' & E & Hk).
  exists h'. split; [|exact Hk]. unfold r_http. rewrite H. cbn [obnd req].
  assert (U : r_uint 16 (JNum (NInt s)) = Some s) by (now apply uint_iff). rewrite U. cbn [obnd]. rewrite E. reflexivity.
Qed.
Lemma simple_iff d b e : r_simple d = Some (b, e) <-> an_outcome d b e.
Proof.
  unfold r_simple. split.
  - intros H. apply bnd_iff in H. destruct H as (l & Hl & H). apply fields_says in Hl.
    destruct l as [|a [|c []]]; try discriminate.
    apply bnd_iff in H. destruct H as (x & Hx & H). apply bnd_iff in H. destruct H as (y & Hy & H). injection H as -> ->.
    apply req_iff in Hx. destruct Hx as (v & -> & Hx). apply bool_iff in Hx. subst v.
    apply opt_text_iff in Hy. now exists c.
  - intros (o & H & Ho). apply fields_says in H. rewrite H. cbn [obnd req r_bool].
    apply opt_text_iff in Ho. now rewrite Ho.
Qed.
Lemma failure_iff d f : r_failure d = Some f <-> a_failed_message d (fst f) (snd f).
Proof.
  unfold r_failure. split.
  - intros H. apply bnd_iff in H. destruct H as (l & Hl & H). apply fields_says in Hl.
    destruct l as [|a [|c []]]; try discriminate.
    apply bnd_iff in H. destruct H as (x & Hx & H). apply bnd_iff in H. destruct H as (y & Hy & H). injection H as <-.
    apply req_iff in Hx. destruct Hx as (v & -> & Hx). apply str_iff in Hx. subst v.
    apply opt_text_iff in Hy. now exists c.
  - destruct f as [i e]. cbn. intros (o & H & Ho). apply fields_says in H. rewrite H. cbn [obnd req r_str].
    apply opt_text_iff in Ho. now rewrite Ho.
Qed.
Lemma all_iff {A B} (f : A -> option B) (P : A -> B -> Prop) : (forall a b, f a = Some b <-> P a b) ->
  forall l ys, all f l = Some ys <-> Forall2 P l ys.
Proof.
  intros Hf l. induction l as [|x l IH]; simpl; intros ys.
  - split; [intros [= <-]; constructor|now inversion 1].
  - rewrite bnd_iff. split.
    + intros (y & Hy & H). apply bnd_iff in H. destruct H as (zs & Hz & H). injection H as <-.
      constructor; [now apply Hf|now apply IH].
    + intros H. inversion H as [|? y ? zs H1 H2]; subst. exists y. split; [now apply Hf|].
      apply bnd_iff. exists zs. split; [now apply IH|reflexivity].
Qed.

Lemma processing_reads d r : r_processing d = Some r -> exists b fs, r = DProcessing b fs /\ a_processing_result d b fs.
Proof.
  unfold r_processing. intros H. apply bnd_iff in H. destruct H as (l & Hl & H). apply fields_says in Hl.
  destruct l as [|a [|c []]]; try discriminate.
  apply bnd_iff in H. destruct H as (x & Hx & H). apply bnd_iff in H. destruct H as (y & Hy & H). injection H as <-.
  apply req_iff in Hx. destruct Hx as (v & -> & Hx). apply bool_iff in Hx. subst v.
  exists x, y. split; [reflexivity|]. exists c. split; [exact Hl|].
  destruct c as [[| | | |l|]|]; simpl in Hy; try discriminate; try (injection Hy as <-; auto).
  destruct (all r_failure l) as [fs|] eqn:E; [|discriminate]. injection Hy as <-.
  exists l. split; [reflexivity|]. now apply (all_iff r_failure _ failure_iff).
Qed.
Lemma reads_processing d b fs : a_processing_result d b fs -> r_processing d = Some (DProcessing b fs).
Proof.
  intros (o & H & Ho). apply fields_says in H. unfold r_processing. rewrite H. cbn [obnd req r_bool].
  destruct fs as [fs|].
  - destruct Ho as (l & -> & Hl). simpl. apply (all_iff r_failure _ failure_iff) in Hl. now rewrite Hl.
  - destruct Ho as [-> | ->]; reflexivity.
Qed.

Lemma data_reads d r : r_data d = Some r ->
  match r with
  | DHttp s h b => an_http_response d s h b
  | DWebSocket b e => an_outcome d b e /\ (forall s h t, ~ an_http_response d s h t)
  | DProcessing b fs => a_processing_result d b fs /\ (forall s h t, ~ an_http_response d s h t) /\ (forall b e, ~ an_outcome d b e)
  | DScheduled _ _ | DEvent _ _ => False
  end.
Proof.
  unfold r_data. destruct (r_http d) as [x|] eqn:E1.
  { intros [= <-]. destruct (http_reads _ _ E1) as (s & h & b & -> & H). exact H. }
  assert (N1 : forall s h t, ~ an_http_response d s h t).
  { intros s h t H. destruct (reads_http _ _ _ _ H) as (h' & E & _). congruence. }
  destruct (r_simple d) as [[b e]|] eqn:E2; simpl.
  { intros [= <-]. split; [now apply simple_iff|exact N1]. }
  assert (N2 : forall b e, ~ an_outcome d b e).
  { intros b e H. apply simple_iff in H. congruence. }
  destruct (r_processing d) as [x|] eqn:E3; simpl; [|discriminate].
  intros [= <-]. destruct (processing_reads _ _ E3) as (b & fs & -> & H). auto.
Qed.
Lemma reads_data_http d s h b : an_http_response d s h b -> exists h', r_data d = Some (DHttp s h' b) /\ forall k, lookup k h' = lookup k h.
Proof. intros H. destruct (reads_http _ _ _ _ H) as (h' & E & Hk). exists h'. split; [|exact Hk]. unfold r_data. now rewrite E. Qed.
Lemma reads_data_outcome d b e : an_outcome d b e -> (forall s h t, ~ an_http_response d s h t) -> r_data d = Some (DWebSocket b e).
Proof.
  intros H N. unfold r_data. destruct (r_http d) as [x|] eqn:E1.
  - destruct (http_reads _ _ E1) as (s & h & t & -> & H'). now apply N in H'.
  - apply simple_iff in H. now rewrite H.
Qed.
Lemma reads_data_processing d b fs : a_processing_result d b fs -> (forall s h t, ~ an_http_response d s h t) -> (forall b e, ~ an_outcome d b e) ->
  r_data d = Some (DProcessing b fs).
Proof.
  intros H N N2. unfold r_data. destruct (r_http d) as [x|] eqn:E1.
  - destruct (http_reads _ _ E1) as (s & h & t & -> & H'). now apply N in H'.
  - destruct (r_simple d) as [[b' e]|] eqn:E2; [apply simple_iff in E2; now apply N2 in E2|].
    simpl. now rewrite (reads_processing _ _ _ H).
Qed.
Lemma data_refused d : r_data d = None <->
  (forall s h t, ~ an_http_response d s h t) /\ (forall b e, ~ an_outcome d b e) /\ (forall b fs, ~ a_processing_result d b fs).
Proof.
  split.
  - intros E. split; [|split].
    + intros s h t H. destruct (reads_data_http _ _ _ _ H) as (h' & E' & _). congruence.
    + intros b e H. unfold r_data in E. apply simple_iff in H. rewrite H in E. destruct (r_http d); discriminate.
    + intros b fs H. unfold r_data in E. rewrite (reads_processing _ _ _ H) in E.
      destruct (r_http d); [discriminate|]. destruct (r_simple d); discriminate.
  - intros (N1 & N2 & N3). destruct (r_data d) as [r|] eqn:E; [|reflexivity]. apply data_reads in E.
    destruct r as [s h b|b e|b fs|b e|b e].
    + now apply N1 in E.
    + destruct E as [E _]. now apply N2 in E.
    + destruct E as [E _]. now apply N3 in E.
    + destruct E.
    + destruct E.
Qed.

(** An object with an outcome and no status *)
Lemma object_outcome m b : once "success" (JBool b) m -> absent "errorMessage" m -> absent "status" m ->
  r_data (JObj m) = Some (DWebSocket b None).
Proof.
  intros H1 H2 H3. apply reads_data_outcome.
  - exists None. split; [|constructor]. constructor. repeat constructor; auto.
  - intros s h t (m' & H & _). inversion H as [? ? F|]; subst. inversion F as [|? ? ? ? Hx Hl]; subst. destruct Hx as (a & c & -> & _).
    apply H3. rewrite map_app. apply in_or_app. right. now left.
Qed.

(** * Writing and reading back *)
Lemma fold_insert (m : smap json) : forall r, NoDup (map fst (r ++ m)) -> fold_left (fun r e => insert (fst e) (snd e) r) m r = r ++ m.
Proof.
  induction m as [|[k v] m IH]; simpl; intros r H; [now rewrite app_nil_r|].
  assert (E : insert k v r = r ++ [(k, v)]).
  { assert (N : ~ In k (map fst r)).
    { rewrite map_app in H. simpl in H. apply NoDup_remove_2 in H. intros Hin. apply H. apply in_or_app. now left. }
    clear IH H. induction r as [|[k' v'] r IHr]; simpl; [reflexivity|].
    destruct (String.eqb_spec k k') as [->|]; [exfalso; apply N; now left|]. f_equal. apply IHr. intros Hin. apply N. now right. }
  rewrite E, IH.
  - now rewrite <- app_assoc.
  - now rewrite <- app_assoc.
Qed.
Lemma plain_value v : plain v -> value_of v = v.
Proof.
  revert v. apply (json_rect_nested (fun v => plain v -> value_of v = v)); try reflexivity.
  - intros l IH H. simpl. f_equal. inversion H as [| | | |? F|]; subst. clear H.
    induction IH as [|x l Hx IH IHl]; [reflexivity|]. simpl. f_equal; [apply Hx; now inversion F|apply IHl; now inversion F].
  - intros m IH H. simpl. inversion H as [| | | | |? N F]; subst. clear H. f_equal.
    assert (E : map (fun e => (fst e, value_of (snd e))) m = m).
    { clear N. induction IH as [|[k x] m Hx IH IHm]; [reflexivity|]. simpl. f_equal; [f_equal; apply Hx; now inversion F|apply IHm; now inversion F]. }
    rewrite E. exact (fold_insert m [] N).
Qed.
Lemma insert_new {V} k (v : V) r : ~ In k (map fst r) -> insert k v r = r ++ [(k, v)].
Proof.
  induction r as [|[k' v'] r IH]; simpl; intros N; [reflexivity|].
  destruct (String.eqb_spec k k') as [->|]; [exfalso; apply N; now left|]. f_equal. apply IH. intros H. apply N. now right.
Qed.
Lemma gather_back {A} (f : json -> option A) g (Hf : forall a, f (g a) = Some a) (m : smap A) : forall r,
  NoDup (map fst (r ++ m)) -> gather f (map (fun e => (fst e, g (snd e))) m) r = Some (r ++ m).
Proof.
  induction m as [|[k v] m IH]; simpl; intros r H; [now rewrite app_nil_r|].
  rewrite Hf. simpl. rewrite insert_new.
  - rewrite IH; rewrite <- app_assoc; [reflexivity|exact H].
  - rewrite map_app in H. simpl in H. apply NoDup_remove_2 in H. intros Hin. apply H. apply in_or_app. now left.
Qed.
Lemma map_back {A} (f : json -> option A) g (Hf : forall a, f (g a) = Some a) (m : smap A) :
  NoDup (map fst m) -> r_map f (w_map g m) = Some m.
Proof. intros H. simpl. exact (gather_back f g Hf m [] H). Qed.
Lemma strs_back l : r_list r_str (w_strs l) = Some l.
Proof. simpl. now apply all_strs. Qed.
Lemma all_back {A} (f : json -> option A) g l : (forall a, In a l -> f (g a) = Some a) -> all f (map g l) = Some l.
Proof.
  induction l as [|a l IH]; simpl; intros H; [reflexivity|].
  rewrite H by now left. simpl. rewrite IH by (intros x Hx; apply H; now right). reflexivity.
Qed.
Lemma str_back s : r_str (JStr s) = Some s. Proof. reflexivity. Qed.
Lemma uint_back bits z : (0 <= z < 2 ^ bits)%Z -> r_uint bits (w_uint z) = Some z.
Proof. intros H. now apply uint_iff. Qed.

Lemma http_event_back e : held_payload (PHttp e) -> r_http_event (w_http_event e) = Some e.
Proof.
  intros (H1 & H2 & H3 & H4 & H5). unfold r_http_event, w_http_event.
  pose proof (map_back r_str JStr str_back _ H1) as E1. pose proof (map_back r_str JStr str_back _ H2) as E2.
  pose proof (map_back (r_list r_str) w_strs strs_back _ H3) as E3. pose proof (map_back r_str JStr str_back _ H4) as E4.
  pose proof (map_back (r_list r_str) w_strs strs_back _ H5) as E5.
  destruct e as [a b c d f g h i [j|] k l]; cbn [he_method he_path he_route he_path_params he_query he_multi_query he_headers he_multi_headers he_body he_source_ip he_request_id] in *;
    cbn [w_opt app fields forallb occurs filter fst String.eqb Ascii.eqb Bool.eqb length Nat.leb andb map lookup obnd req opt option_map r_str];
    rewrite E1; cbn [obnd]; rewrite E2; cbn [obnd]; rewrite E3; cbn [obnd]; rewrite E4; cbn [obnd]; rewrite E5; reflexivity.
Qed.
Lemma ws_event_back e : r_ws_event (w_ws_event e) = Some e.
Proof. destruct e as [a b c [d|] f]; reflexivity. Qed.
Lemma req_value v : plain v -> req r_value (Some v) = Some v.
Proof. intros H. unfold req, r_value. simpl. now rewrite plain_value. Qed.
Lemma consumer_message_back m : plain (cm_attributes m) -> plain (cm_vendor m) -> r_consumer_message (w_consumer_message m) = Some m.
Proof.
  intros H1 H2. unfold r_consumer_message, w_consumer_message. cbn -[req r_value]. rewrite !req_value by assumption. now destruct m.
Qed.
Lemma consumer_event_back e : held_payload (PConsumer e) -> r_consumer_event (w_consumer_event e) = Some e.
Proof.
  intros [H1 H2]. unfold r_consumer_event, w_consumer_event. cbn -[req r_value r_consumer_message w_consumer_message].
  rewrite req_value by assumption. unfold req, obnd at 1. cbn -[r_value r_consumer_message w_consumer_message].
  rewrite all_back.
  - now destruct e.
  - intros m Hm. rewrite Forall_forall in H2. destruct (H2 m Hm). now apply consumer_message_back.
Qed.
Lemma schedule_event_back e : held_payload (PSchedule e) -> r_schedule_event (w_schedule_event e) = Some e.
Proof.
  intros H. simpl in H. unfold r_schedule_event, w_schedule_event. cbn -[req r_value]. rewrite req_value by assumption. now destruct e.
Qed.
(** Attributes that are null are read as none. *)
Definition null_is_none (o : option json) : option json := match o with Some JNull => None | _ => o end.
Lemma opt_value o : match o with Some v => plain v | None => True end -> opt r_value o = Some (null_is_none o).
Proof. destruct o as [v|]; [|reflexivity]. intros H. apply plain_value in H. unfold opt, r_value, option_map. destruct v; try reflexivity; now rewrite H. Qed.
Lemma message_event_back e : held_payload (PEvent e) ->
  r_message_event (w_message_event e) =
  Some {| me_body := me_body e; me_source := me_source e; me_id := me_id e; me_attributes := null_is_none (me_attributes e); me_vendor := me_vendor e |}.
Proof.
  intros [H1 H2]. unfold r_message_event, w_message_event.
  destruct e as [a b [c|] [d|] f]; cbn [me_body me_source me_id me_attributes me_vendor] in *; cbn -[req r_value opt];
    rewrite ?req_value by assumption; rewrite ?opt_value by assumption; try reflexivity.
Qed.
Definition read_back (e : event event_body) : event event_body :=
  {| ev_id := ev_id e;
     ev_body := {| eb_type := eb_type (ev_body e); eb_tag := eb_tag (ev_body e); eb_time := eb_time (ev_body e);
                   eb_data := match eb_data (ev_body e) with
                              | PEvent m => PEvent {| me_body := me_body m; me_source := me_source m; me_id := me_id m;
                                                      me_attributes := null_is_none (me_attributes m); me_vendor := me_vendor m |}
                              | p => p end |} |}.
Lemma payload_back p : held_payload p ->
  r_payload (w_payload p) = Some (match p with
    | PEvent m => PEvent {| me_body := me_body m; me_source := me_source m; me_id := me_id m;
                            me_attributes := null_is_none (me_attributes m); me_vendor := me_vendor m |}
    | p => p end).
Proof.
  destruct p as [e|e|e|e|e]; intros H; cbn -[r_http_event w_http_event r_ws_event w_ws_event r_consumer_event w_consumer_event r_schedule_event w_schedule_event r_message_event w_message_event].
  - now rewrite http_event_back.
  - now rewrite ws_event_back.
  - now rewrite consumer_event_back.
  - now rewrite schedule_event_back.
  - now rewrite message_event_back.
Qed.
Lemma type_back t : r_type (w_type t) = Some t.
Proof. now destruct t. Qed.
Lemma event_back e : held_event e -> r_event (w_event e) = Some (read_back e).
Proof.
  intros [H1 H2]. unfold r_event, w_event. cbn -[r_type w_type r_payload w_payload r_uint w_uint].
  rewrite type_back. cbn [obnd]. rewrite uint_back by assumption. cbn [obnd]. rewrite payload_back by assumption. unfold read_back. now destruct (eb_data (ev_body e)).
Qed.
Lemma read_back_same e : ~ null_attributes e -> read_back e = e.
Proof.
  destruct e as [i [t g m d]]. unfold null_attributes, read_back. cbn. destruct d as [e|e|e|e|[a b c o f]]; try reflexivity.
  cbn. destruct o as [[]|]; try reflexivity. congruence.
Qed.
Lemma wf_event_back e : (0 <= wb_time (ev_body e) < 2 ^ 64)%Z -> plain (wb_data (ev_body e)) -> r_wf_event (w_wf_event e) = Some e.
Proof.
  intros H1 H2. unfold r_wf_event, w_wf_event. cbn -[req r_value r_uint w_uint]. rewrite req_value by assumption.
  unfold req, obnd at 4. cbn -[r_value r_uint w_uint]. rewrite uint_back by assumption. now destruct e as [i []].
Qed.

(** Results *)
Lemma result_back id s h b c : (0 <= s < 65536)%Z -> NoDup (map fst h) -> match c with Some v => plain v | None => True end ->
  r_result (w_result id {| rs_data := DHttp s h b; rs_context := c |}) = Some (id, {| rs_data := DHttp s h b; rs_context := null_is_none c |}).
Proof.
  intros Hs Hh Hc.
  assert (D : r_data (w_data (DHttp s h b)) = Some (DHttp s h b)).
  { unfold r_data, r_http. cbn -[r_uint w_uint r_map w_map r_simple r_processing]. rewrite uint_back by exact Hs. cbn [obnd].
    rewrite (map_back r_str JStr str_back) by exact Hh. reflexivity. }
  unfold r_result, w_result. cbn [rs_data rs_context].
  destruct c as [c|]; cbn -[r_data w_data opt r_value]; rewrite D; cbn [obnd].
  - rewrite (opt_value (Some c)) by exact Hc. reflexivity.
  - reflexivity.
Qed.
Lemma failures_lost b fs : r_data (w_data (DProcessing b fs)) = Some (DWebSocket b None).
Proof. destruct fs; reflexivity. Qed.
Lemma kinds_lost b e : r_data (w_simple b e) = Some (DWebSocket b e).
Proof. destruct e; reflexivity. Qed.

Lemma result_reads doc id r : r_result doc = Some (id, r) <->
  exists d c, says ["eventId"; "data"; "context"] doc [Some (JStr id); Some d; c] /\ r_data d = Some (rs_data r)
    /\ rs_context r = match c with None | Some JNull => None | Some v => Some (value_of v) end.
Proof.
  unfold r_result. split.
  - intros H. apply bnd_iff in H. destruct H as (l & Hl & H). apply fields_says in Hl.
    destruct l as [|a [|b [|c []]]]; try discriminate.
    apply bnd_iff in H. destruct H as (x & Hx & H). apply bnd_iff in H. destruct H as (y & Hy & H).
    apply bnd_iff in H. destruct H as (z & Hz & H). injection H as <- <-.
    apply req_iff in Hx. destruct Hx as (v & -> & Hx). apply str_iff in Hx. subst v.
    apply req_iff in Hy. destruct Hy as (d & -> & Hy). exists d, c. split; [exact Hl|]. split; [exact Hy|]. cbn.
    destruct c as [[]|]; cbn in Hz; injection Hz as <-; reflexivity.
  - intros (d & c & H & Hd & Hc). apply fields_says in H. rewrite H. cbn -[r_data opt r_value]. rewrite Hd. cbn [obnd].
    assert (O : opt r_value c = Some (rs_context r)).
    { rewrite Hc. destruct c as [[]|]; reflexivity. }
    rewrite O. now destruct r.
Qed.

(** Messages between nodes *)
Lemma wrapped_back w : r_wrapped (w_wrapped w) = Some w.
Proof.
  destruct w as [s [[a b c d e]|n i]]; [|reflexivity].
  unfold r_wrapped, w_wrapped. cbn -[all].
  assert (A : all r_str (map JStr c) = Some c) by now apply all_strs. rewrite A. reflexivity.
Qed.
Lemma occurs_remove k k' m : k <> k' -> occurs k (remove_key k' m) = occurs k m.
Proof.
  intros N. induction m as [|[x v] m IH]; [reflexivity|]. unfold occurs in *. simpl.
  destruct (String.eqb_spec k' x) as [<-|]; simpl.
  - destruct (String.eqb_spec k k'); [congruence|exact IH].
  - destruct (String.eqb k x); simpl; now rewrite IH.
Qed.
Lemma once_remove k k' v m : k <> k' -> once k v (remove_key k' m) <-> once k v m.
Proof. intros N. rewrite <- !once_iff, occurs_remove, lookup_remove_ne by exact N. tauto. Qed.
Lemma ack_reads m n i : r_bus (JObj m) = Some (MsgAck n i) <->
  once "type" (JStr "Ack") m /\ once "message_node" (JStr n) m /\ once "message_id" (JStr i) m.
Proof.
  unfold r_bus. split.
  - intros H. destruct (Nat.eqb_spec (occurs "type" m) 1) as [E|]; [|discriminate].
    apply bnd_iff in H. destruct H as ([t c] & H1 & H). apply bnd_iff in H1. destruct H1 as (t' & Ht & H1). injection H1 as -> <-.
    apply bnd_iff in H. destruct H as (ty & Hty & H). apply str_iff in Hty. subst t.
    destruct (String.eqb_spec ty "WebSocket").
    { apply bnd_iff in H. destruct H as ([src w] & _ & H). discriminate. }
    destruct (String.eqb_spec ty "Ack") as [->|]; [|discriminate].
    apply bnd_iff in H. destruct H as ([n' i'] & Ha & H). injection H as -> ->.
    unfold r_ack in Ha. apply bnd_iff in Ha. destruct Ha as (l & Hl & Ha). apply fields_says in Hl.
    destruct l as [|a [|b []]]; try discriminate.
    apply bnd_iff in Ha. destruct Ha as (x & Hx & Ha). apply bnd_iff in Ha. destruct Ha as (y & Hy & Ha). injection Ha as -> ->.
    apply req_iff in Hx. destruct Hx as (v & -> & Hx). apply str_iff in Hx. subst v.
    apply req_iff in Hy. destruct Hy as (v & -> & Hy). apply str_iff in Hy. subst v.
    inversion Hl as [? ? F|]; subst. inversion F as [|? ? ? ? F1 F']; subst. inversion F' as [|? ? ? ? F2 _]; subst.
    apply once_remove in F1; [|discriminate]. apply once_remove in F2; [|discriminate].
    split; [|auto]. apply once_iff. split; [lia|exact Ht].
  - intros (H1 & H2 & H3). pose proof H1 as H1'. apply once_iff in H1. destruct H1 as [Ho Hl].
    assert (E : occurs "type" m = 1).
    { destruct (occurs "type" m) as [|[|]] eqn:Q; [|reflexivity|lia]. apply occurs_0 in Q. apply lookup_absent in Q. congruence. }
    rewrite E, Nat.eqb_refl, Hl. cbn -[r_ack r_ws_message]. unfold r_ack.
    assert (F : fields ["message_node"; "message_id"] (JObj (remove_key "type" m)) = Some [Some (JStr n); Some (JStr i)]).
    { apply fields_says. constructor. repeat constructor; apply once_remove; auto; discriminate. }
    rewrite F. reflexivity.
Qed.

(** Batches *)
Lemma ws_message_reads j src m : r_ws_message j = Some (src, m) <->
  exists o, a_message j (wm_connection_id m) (wm_message_id m) (wm_message m) (Some (JStr src)) o /\ optional_texts o (wm_inform_clients_on_loss m).
Proof.
  unfold r_ws_message, a_message. split.
  - intros H. apply bnd_iff in H. destruct H as (l & Hl & H). apply fields_says in Hl.
    destruct l as [|a [|b [|c [|d [|e []]]]]]; try discriminate.
    apply bnd_iff in H. destruct H as (x & Hx & H). apply bnd_iff in H. destruct H as (y & Hy & H).
    apply bnd_iff in H. destruct H as (z & Hz & H). apply bnd_iff in H. destruct H as (u & Hu & H).
    apply bnd_iff in H. destruct H as (t & Ht & H). injection H as -> <-.
    apply req_iff in Hx. destruct Hx as (v & -> & Hx). apply str_iff in Hx. subst v.
    apply req_iff in Hy. destruct Hy as (v & -> & Hy). apply str_iff in Hy. subst v.
    apply req_iff in Hu. destruct Hu as (v & -> & Hu). apply str_iff in Hu. subst v.
    apply req_iff in Ht. destruct Ht as (v & -> & Ht). apply str_iff in Ht. subst v.
    exists c. split; [exact Hl|]. now apply opt_texts_iff.
  - intros (o & H & Ho). apply fields_says in H. rewrite H. cbn -[opt]. apply opt_texts_iff in Ho. rewrite Ho. now destruct m.
Qed.
Lemma batch_reads doc ms : r_ws_messages doc = Some ms <->
  exists l, says ["messages"] doc [Some (JArr l)] /\
    Forall2 (fun j (x : string * LocalApiModel.ws_message) => exists o,
      a_message j (wm_connection_id (snd x)) (wm_message_id (snd x)) (wm_message (snd x)) (Some (JStr (fst x))) o
      /\ optional_texts o (wm_inform_clients_on_loss (snd x))) l ms.
Proof.
  assert (Q : forall j (x : string * LocalApiModel.ws_message), r_ws_message j = Some x <-> exists o,
      a_message j (wm_connection_id (snd x)) (wm_message_id (snd x)) (wm_message (snd x)) (Some (JStr (fst x))) o
      /\ optional_texts o (wm_inform_clients_on_loss (snd x))).
  { intros j [src m]. apply ws_message_reads. }
  unfold r_ws_messages. split.
  - intros H. apply bnd_iff in H. destruct H as (l & Hl & H). apply fields_says in Hl.
    destruct l as [|a []]; try discriminate. apply req_iff in H. destruct H as (v & -> & H).
    destruct v as [| | | |l|]; try discriminate. exists l. split; [exact Hl|]. now apply (all_iff _ _ Q).
  - intros (l & H & F). apply fields_says in H. rewrite H. cbn. now apply (all_iff _ _ Q).
Qed.
Lemma forall2_in_l {A B} (P : A -> B -> Prop) l ms x : Forall2 P l ms -> In x l -> exists y, P x y.
Proof. induction 1 as [|a b l ms H F IH]; [intros []|]. intros [<-|Hin]; [now exists b|auto]. Qed.
Lemma batch_refused {W} (send : option (sender W)) w doc l j m : says ["messages"] doc [Some (JArr l)] -> In j l -> j = JObj m -> absent "sourceNode" m ->
  post_messages send w doc = (w, BatchRefused).
Proof.
  intros H Hin -> Ha. unfold post_messages. destruct (r_ws_messages doc) as [ms|] eqn:E; [|reflexivity].
  apply batch_reads in E. destruct E as (l' & H' & F). pose proof (says_fun _ _ _ _ H H') as Q. injection Q as <-.
  destruct (forall2_in_l _ _ _ _ F Hin) as (y & o & M & _). unfold a_message in M. inversion M as [? ? G|]; subst.
  inversion G as [|? ? ? ? _ G2]; subst. inversion G2 as [|? ? ? ? G3 _]; subst. destruct G3 as (a & b & -> & _).
  exfalso. apply Ha. rewrite map_app. apply in_or_app. right. now left.
Qed.

Lemma context_kept c : a_context c match c with None | Some JNull => None | Some v => Some (value_of v) end.
Proof. destruct c as [[]|]; unfold a_context; try reflexivity; intros P; now rewrite plain_value. Qed.
