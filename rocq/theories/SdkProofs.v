(** Lemmas on the SDKs *)
From Verif Require Import Base Chars SdkModel SdkSpec.
From Verif Require ApiModel EnvModel EnvSpec RouteModel RouteSpec RouteProofs ResolveModel ResolveSpec ResolveProofs Value.
Local Open Scope list_scope.

Lemma lower_word t t' : Forall2 EnvSpec.same_letter t t' /\ (forall c, In c t' -> ~ (65 <= c <= 90)%N) <-> t' = map EnvModel.lower t.
Proof.
  revert t'. induction t as [|c t IH]; intros t'; cbn [map].
  - split; [intros (H & _); inversion H; reflexivity|]. intros ->. split; [constructor|intros c []].
  - split.
    + intros (H & N). inversion H as [|? c' ? t2 S F]; subst. f_equal.
      * specialize (N c' (or_introl eq_refl)). unfold EnvModel.lower. destruct S as [->|(S1 & ->)].
        -- destruct ((65 <=? c') && (c' <=? 90))%N eqn:E; [|reflexivity]. apply andb_true_iff in E. rewrite !N.leb_le in E. lia.
        -- assert (E : ((65 <=? c) && (c <=? 90))%N = true) by (apply andb_true_iff; rewrite !N.leb_le; lia). rewrite E. reflexivity.
      * apply IH. split; [exact F|]. intros x Hx. apply N. right. exact Hx.
    + intros ->. destruct (proj2 (IH _) eq_refl) as (F & N). split.
      * constructor; [|exact F]. unfold EnvModel.lower, EnvSpec.same_letter. destruct ((65 <=? c) && (c <=? 90))%N eqn:E; [|auto]. apply andb_true_iff in E. rewrite !N.leb_le in E. right. lia.
      * intros x [<-|Hx]; [|apply N, Hx]. unfold EnvModel.lower. destruct ((65 <=? c) && (c <=? 90))%N eqn:E; [|apply andb_false_iff in E; rewrite !N.leb_gt in E; lia]. apply andb_true_iff in E. rewrite !N.leb_le in E. lia.
Qed.
Lemma headers_iff (hs hs' : list (text * text)) : Forall2 (fun h h' => Forall2 EnvSpec.same_letter (fst h) (fst h') /\ (forall c, In c (fst h') -> ~ (65 <= c <= 90)%N) /\ snd h' = snd h) hs hs'
  <-> hs' = map (fun h => (map EnvModel.lower (fst h), snd h)) hs.
Proof.
  revert hs'. induction hs as [|h hs IH]; intros hs'; cbn [map].
  - split; [intros H; inversion H; reflexivity|intros ->; constructor].
  - split.
    + intros H. inversion H as [|? h' ? l (A & B & C) F]; subst. f_equal; [|apply IH, F]. destruct h' as [k' v']. cbn in *. f_equal; [apply lower_word; auto|exact C].
    + intros ->. constructor; [|apply IH; reflexivity]. cbn. destruct (proj2 (lower_word (fst h) _) eq_refl). auto.
Qed.
Lemma into_response_iff name_ok value_ok r p : into_response name_ok value_ok r = Ok p <-> sendable name_ok value_ok r /\ carries r p.
Proof.
  unfold into_response, sendable, carries. rewrite headers_iff. destruct (forallb _ _) eqn:F.
  - assert (H : forall hs k v, rs_headers r = Some hs -> In (k, v) hs -> name_ok k = true /\ value_ok v = true).
    { intros hs k v E I. rewrite E in F. rewrite forallb_forall in F. specialize (F _ I). apply andb_true_iff in F. exact F. }
    destruct ((100 <=? rs_status r) && (rs_status r <? 1000))%N eqn:S.
    + apply andb_true_iff in S. rewrite N.leb_le, N.ltb_lt in S. destruct p as [s h b]. cbn [rp_status rp_headers rp_body]. split.
      * intros [= <- <- <-]. split; [split; [lia|exact H]|]. split; [reflexivity|]. split; [destruct (rs_body r); reflexivity|]. reflexivity.
      * intros (_ & -> & B & ->). f_equal. f_equal. destruct (rs_body r); symmetry; exact B.
    + split; [discriminate|]. intros (((A & B) & _) & _). exfalso. apply andb_false_iff in S. rewrite N.leb_gt, N.ltb_ge in S. lia.
  - split; [discriminate|]. intros ((_ & H) & _). exfalso. assert (forallb (fun h => name_ok (fst h) && value_ok (snd h)) (or_empty (rs_headers r)) = true); [|congruence].
    apply forallb_forall. intros [k v] I. apply andb_true_iff. cbn. destruct (rs_headers r) as [hs|]; [|destruct I]. exact (H hs k v eq_refl I).
Qed.
Lemma into_response_cases name_ok value_ok r : (exists p, into_response name_ok value_ok r = Ok p) \/ into_response name_ok value_ok r = Panic.
Proof. unfold into_response. repeat match goal with |- context[if ?b then _ else _] => destruct b end; eauto. Qed.

Lemma node_iff c r : node_outcome c r <-> exists tie, node_result c tie = r.
Proof.
  split.
  - intros [m|t x L|t x L|].
    + exists true. reflexivity.
    + exists true. cbn. assert (((t <? 30000) || ((t =? 30000) && true))%N = true) as ->; [|reflexivity]. apply orb_true_iff. rewrite N.ltb_lt, andb_true_r, N.eqb_eq. lia.
    + exists false. cbn. assert (((t <? 30000) || ((t =? 30000) && false))%N = false) as ->; [|reflexivity]. apply orb_false_iff. rewrite N.ltb_ge, andb_false_r. auto.
    + exists true. reflexivity.
  - intros (tie & <-). destruct c as [m|[[t x]|]]; cbn; [constructor| |constructor]. destruct ((t <? 30000) || ((t =? 30000) && tie))%N eqn:E.
    + constructor. apply orb_true_iff in E. rewrite N.ltb_lt, andb_true_iff, N.eqb_eq in E. lia.
    + constructor. apply orb_false_iff in E. rewrite N.ltb_ge in E. tauto.
Qed.

Lemma to_str_iff v t : to_str v = Some t <-> textual v /\ t = v.
Proof.
  unfold to_str, textual. destruct (forallb _ v) eqn:F.
  - rewrite forallb_forall in F. split; [intros [= <-]; split; [|reflexivity]|intros (_ & ->); reflexivity]. intros c I. specialize (F c I). apply orb_true_iff in F. rewrite andb_true_iff, N.leb_le, N.ltb_lt, N.eqb_eq in F. lia.
  - split; [discriminate|]. intros (H & _). exfalso. assert (X : forallb (fun c => ((32 <=? c) && (c <? 127)) || (c =? 9))%N v = true); [|congruence]. apply forallb_forall. intros c I. apply orb_true_iff. rewrite andb_true_iff, N.leb_le, N.ltb_lt, N.eqb_eq. specialize (H c I). lia.
Qed.
Lemma get_first {A} k (v : A) m : get k m = Some v <-> first_of k v m.
Proof.
  unfold first_of. induction m as [|[k' v'] m IH]; cbn [get].
  - split; [discriminate|]. intros (a & b & H & _). destruct a; discriminate.
  - destruct (text_eqb k' k) eqn:E.
    + apply text_eqb_eq in E. subst k'. split.
      * intros [= ->]. exists [], m. split; [reflexivity|intros []].
      * intros (a & b & H & N). destruct a as [|x a]; [injection H as ->; reflexivity|]. injection H as <- _. exfalso. apply N. left. reflexivity.
    + rewrite IH. split.
      * intros (a & b & -> & N). exists ((k', v') :: a), b. split; [reflexivity|]. intros [H|H]; [|contradiction]. cbn in H. subst k'. rewrite (proj2 (text_eqb_eq k k) eq_refl) in E. discriminate.
      * intros (a & b & H & N). destruct a as [|x a]; [injection H as -> _ _; rewrite (proj2 (text_eqb_eq k k) eq_refl) in E; discriminate|]. injection H as <- ->. exists a, b. split; [reflexivity|]. intros H. apply N. right. exact H.
Qed.
Lemma get_insert {A} k k' (v : A) m : get k (insert k' v m) = if text_eqb k' k then Some v else get k m.
Proof.
  induction m as [|[j w] m IH]; cbn [insert get]; [reflexivity|]. destruct (text_eqb j k') eqn:E.
  - apply text_eqb_eq in E. subst j. cbn [get]. destruct (text_eqb k' k); reflexivity.
  - cbn [get]. destruct (text_eqb j k) eqn:F; [|exact IH]. apply text_eqb_eq in F. subst j. destruct (text_eqb k' k) eqn:G; [|reflexivity]. apply text_eqb_eq in G. subst k'. rewrite (proj2 (text_eqb_eq k k) eq_refl) in E. discriminate.
Qed.
Lemma get_none {A} k (m : list (text * A)) : get k m = None <-> ~ In k (map fst m).
Proof.
  induction m as [|[k' v] m IH]; cbn; [tauto|]. destruct (text_eqb k' k) eqn:E.
  - apply text_eqb_eq in E. split; [discriminate|]. intros H. exfalso. apply H. auto.
  - rewrite IH. split; [|tauto]. intros H [X|X]; [subst k'; rewrite (proj2 (text_eqb_eq k k) eq_refl) in E; discriminate|contradiction].
Qed.
Lemma last_of_cons {A} k (v : A) x m : last_of k v (x :: m) <-> last_of k v m \/ (x = (k, v) /\ ~ In k (map fst m)).
Proof.
  unfold last_of. split.
  - intros (a & b & H & N). destruct a as [|y a]; injection H as -> ->; [auto|left; eauto].
  - intros [(a & b & -> & N)|(-> & N)]; [exists (x :: a), b; auto|exists [], m; auto].
Qed.
Lemma last_of_dec {A} k (m : list (text * A)) : (exists v, last_of k v m) \/ ~ In k (map fst m).
Proof.
  induction m as [|[k' v] m [(w & IH)|IH]]; [right; intros []|left; exists w; apply last_of_cons; auto|].
  destruct (text_eq_dec k' k) as [->|D]; [left; exists v; apply last_of_cons; auto|]. right. cbn. intros [H|H]; contradiction.
Qed.
Lemma collect_ok hs : forall m m', collect_headers hs m = Ok m' <-> (forall k v, In (k, v) hs -> textual v) /\ m' = fold_left (fun m h => insert (fst h) (snd h) m) hs m.
Proof.
  induction hs as [|[k v] hs IH]; intros m m'; cbn [collect_headers fold_left fst snd].
  - split; [intros [= <-]; split; [intros ? ? []|reflexivity]|intros (_ & ->); reflexivity].
  - destruct (to_str v) as [t|] eqn:T.
    + apply to_str_iff in T. destruct T as (T & ->). rewrite IH. split; intros (A & ->); (split; [|reflexivity]); intros k' v'.
      * intros [[= <- <-]|I]; [exact T|exact (A _ _ I)].
      * intros I. apply (A k' v'). right. exact I.
    + split; [discriminate|]. intros (A & _). exfalso. assert (to_str v = Some v); [|congruence]. apply to_str_iff. split; [|reflexivity]. apply (A k v). left. reflexivity.
Qed.
Lemma get_fold {A} (hs : list (text * A)) k : forall m, get k (fold_left (fun m h => insert (fst h) (snd h) m) hs m) = match get k (fold_left (fun m h => insert (fst h) (snd h) m) hs []) with Some v => Some v | None => get k m end.
Proof.
  induction hs as [|h hs IH]; intros m; cbn [fold_left]; [reflexivity|]. rewrite IH, (IH (insert (fst h) (snd h) [])). destruct (get k (fold_left _ hs [])); [reflexivity|]. rewrite !get_insert. destruct (text_eqb (fst h) k); reflexivity.
Qed.
Lemma get_fold_last {A} (hs : list (text * A)) k v : get k (fold_left (fun m h => insert (fst h) (snd h) m) hs []) = Some v <-> last_of k v hs.
Proof.
  induction hs as [|h hs IH]; cbn [fold_left].
  - split; [discriminate|]. intros (a & b & H & _). destruct a; discriminate.
  - rewrite get_fold, last_of_cons, <- IH. destruct (get k (fold_left _ hs [])) as [w|] eqn:G.
    + split; [auto|]. intros [H|(_ & N)]; [exact H|]. exfalso. apply IH in H || idtac. destruct (last_of_dec k hs) as [(u & L)|L].
      * destruct L as (a & b & -> & _). apply N. rewrite map_app. apply in_or_app. right. left. reflexivity.
      * clear IH. assert (Z : forall l, ~ In k (map fst l) -> get k (fold_left (fun m (h : text * A) => insert (fst h) (snd h) m) l []) = None).
        { induction l as [|[j u] l IH]; intros X; [reflexivity|]. cbn [fold_left]. rewrite get_fold, IH; [|intros Y; apply X; right; exact Y]. rewrite get_insert. cbn. destruct (text_eqb j k) eqn:E; [|reflexivity]. apply text_eqb_eq in E. exfalso. apply X. left. exact E. }
        rewrite (Z hs L) in G. discriminate.
    + rewrite get_insert. cbn [get]. destruct h as [j u]. cbn [fst snd]. split.
      * destruct (text_eqb j k) eqn:E; [|discriminate]. apply text_eqb_eq in E. intros [= ->]. right. split; [congruence|]. intros I. destruct (last_of_dec k hs) as [(w & L)|L]; [|contradiction].
        clear IH. assert (Z : forall l, get k (fold_left (fun m (h : text * A) => insert (fst h) (snd h) m) l []) = None -> ~ In k (map fst l)).
        { induction l as [|[i x] l IH]; intros X; [intros []|]. cbn [fold_left] in X. rewrite get_fold in X. destruct (get k (fold_left _ l [])) eqn:Y; [discriminate|]. rewrite get_insert in X. cbn in X. destruct (text_eqb i k) eqn:E'; [discriminate|]. intros [Q|Q]; [cbn in Q; subst i; rewrite (proj2 (text_eqb_eq k k) eq_refl) in E'; discriminate|]. exact (IH eq_refl Q). }
        exact (Z hs G I).
      * intros [H|([= <- <-] & _)]; [discriminate|]. rewrite (proj2 (text_eqb_eq j j) eq_refl). reflexivity.
Qed.

Lemma parse_usize_iff t n : parse_usize t = Some n <-> (ResolveSpec.digits_mean t n \/ exists ds, t = chars "+" ++ ds /\ ResolveSpec.digits_mean ds n) /\ (n < 2 ^ 64)%Z.
Proof.
  unfold parse_usize. cbv zeta.
  assert (A : forall ds, match ds with [] => None | _ => match ResolveModel.digits_value 0 ds with Some v => if (v <? 2 ^ 64)%Z then Some v else None | None => None end end = Some n <-> ResolveSpec.digits_mean ds n /\ (n < 2 ^ 64)%Z).
  { intros ds. split.
    - destruct ds as [|c ds]; [discriminate|]. destruct (ResolveModel.digits_value 0 (c :: ds)) as [v|] eqn:V; [|discriminate]. destruct (Z.ltb_spec v (2 ^ 64)); [|discriminate]. intros [= <-]. split; [|assumption]. apply ResolveProofs.digits_value_mean; [discriminate|exact V].
    - intros (H & L). pose proof (ResolveProofs.digits_mean_value _ _ H) as V. pose proof (ResolveProofs.digits_mean_nonempty _ _ H) as N. destruct ds as [|c ds]; [congruence|]. rewrite V. destruct (Z.ltb_spec n (2 ^ 64)); [reflexivity|lia]. }
  destruct t as [|c ds]; [split; [discriminate|intros ([H|(ds & H & _)] & _); [apply ResolveProofs.digits_mean_nonempty in H; congruence|discriminate]]|].
  destruct (N.eqb_spec c 43) as [->|D].
  - etransitivity; [apply A|]. split; [intros (H & L); split; [right; exists ds; auto|exact L]|]. intros ([H|(ds' & [= ->] & H)] & L); [|auto]. apply ResolveProofs.digits_mean_head in H. discriminate.
  - etransitivity; [apply (A (c :: ds))|]. split; [intros (H & L); auto|]. intros ([H|(ds' & [= -> _] & H)] & L); [auto|]. exfalso. apply D. reflexivity.
Qed.
Lemma digits_mean_pos t n : ResolveSpec.digits_mean t n -> (0 <= n)%Z.
Proof. induction 1; lia. Qed.
Lemma digits_mean_chars t n : ResolveSpec.digits_mean t n -> forall c, In c t -> (48 <= c <= 57)%N.
Proof.
  induction 1 as [d D|t v d H IH D]; intros c I.
  - destruct I as [<-|[]]. lia.
  - apply in_app_iff in I. destruct I as [I|[<-|[]]]; [apply IH, I|lia].
Qed.
Lemma announced r n : announces r n <->
  exists v, get (chars "content-length") (rq_headers r) = Some v /\ exists t, to_str v = Some t /\ parse_usize t = Some n.
Proof.
  unfold announces. split.
  - intros (v & F & P & L). exists v. split; [apply get_first, F|]. exists v. split; [|apply parse_usize_iff; auto]. apply to_str_iff. split; [|reflexivity]. intros c I. left.
    destruct P as [P|(ds & -> & P)]; [pose proof (digits_mean_chars _ _ P c I); lia|]. cbn in I. destruct I as [<-|I]; [vm_compute; split; discriminate|]. pose proof (digits_mean_chars _ _ P c I); lia.
  - intros (v & G & t & T & P). apply get_first in G. apply to_str_iff in T. destruct T as (_ & ->). apply parse_usize_iff in P. exists v. tauto.
Qed.
Lemma from_axum_some r n : announces r n -> (0 < n)%Z -> from_axum_req r = mk_js (JsSource (Some (rq_body r))) r.
Proof.
  intros A L. apply announced in A. destruct A as (v & G & t & T & P). unfold from_axum_req. rewrite G, T, P. destruct (Z.gtb_spec n 0); [reflexivity|lia].
Qed.
Lemma from_axum_none r : (forall n, announces r n -> n = 0%Z) -> from_axum_req r = mk_js JsEmpty r.
Proof.
  intros H. unfold from_axum_req. destruct (get (chars "content-length") (rq_headers r)) as [v|] eqn:G; [|reflexivity]. destruct (to_str v) as [t|] eqn:T; [|reflexivity]. destruct (parse_usize t) as [n|] eqn:P; [|reflexivity].
  rewrite (H n); [reflexivity|]. apply announced. eauto.
Qed.

(** * Python *)
Lemma app_split {A} (a b c d : list A) : a ++ b = c ++ d -> (exists l, a = c ++ l /\ d = l ++ b) \/ (exists l, c = a ++ l /\ b = l ++ d).
Proof.
  revert c. induction a as [|x a IH]; intros c H; [right; exists c; auto|]. destruct c as [|y c]; [left; exists (x :: a); auto|]. injection H as -> H. destruct (IH c H) as [(l & -> & ->)|(l & -> & ->)]; [left|right]; exists l; auto.
Qed.
Lemma contains_app a b p : contains p (a ++ p ++ b) = true.
Proof. apply contains_spec. eauto. Qed.
Lemma id_inj p m p' m' : plain_path p -> ~ In 58%N m -> handler_id p m = handler_id p' m' -> p = p' /\ m = m'.
Proof.
  unfold handler_id, plain_path. intros P M H. change (chars "::") with [58; 58]%N in *. change (chars ":") with [58%N] in P. apply app_split in H. destruct H as [(l & -> & H)|(l & -> & H)].
  - destruct l as [|c [|d l]].
    + injection H as ->. rewrite app_nil_r. auto.
    + injection H as <- _. exfalso. rewrite <- app_assoc in P. cbn [app] in P. pose proof (contains_app p' [] [58; 58]%N) as X. cbn [app] in X. rewrite P in X. discriminate X.
    + injection H as <- <- _. exfalso. rewrite <- app_assoc in P. pose proof (contains_app p' (l ++ [58%N]) [58; 58]%N) as X. cbn [app] in *. congruence.
  - destruct l as [|c [|d l]].
    + injection H as ->. rewrite app_nil_r. auto.
    + injection H as <- ->. exfalso. apply M. left. reflexivity.
    + injection H as <- <- ->. exfalso. apply M. apply in_or_app. right. left. reflexivity.
Qed.
Lemma names_no_colon m v : RouteSpec.names m v -> ~ In 58%N m.
Proof.
  intros N I. apply RouteProofs.lower_iff in N. apply (in_map EnvModel.lower) in I. rewrite N in I. destruct v; vm_compute in I; intuition discriminate.
Qed.
Lemma registry_fold regs : forall reg, fold_left (fun reg x => py_register reg (fst (fst x)) (snd (fst x)) (snd x)) regs reg = fold_left (fun m h => insert (fst h) (snd h) m) (map (fun x => (handler_id (fst (fst x)) (snd (fst x)), snd x)) regs) reg.
Proof. induction regs as [|x regs IH]; intros reg; [reflexivity|]. cbn. apply IH. Qed.
Lemma registry_iff regs p m k v : plain_path p -> RouteSpec.names m v -> get (handler_id p m) (py_registry regs) = Some k <-> last_registered regs p m k.
Proof.
  intros P N. apply names_no_colon in N. unfold py_registry. rewrite registry_fold, get_fold_last. unfold last_of, last_registered. split.
  - intros (a & b & E & X). apply map_eq_app in E. destruct E as (a0 & b0 & -> & <- & E). apply map_eq_cons in E. destruct E as ([[p' m'] k'] & b1 & -> & E & <-). cbn in E. injection E as E ->. symmetry in E. apply id_inj in E; [|assumption..]. destruct E as (<- & <-).
    exists a0, b1. split; [reflexivity|]. intros k' I. apply X. rewrite map_map. apply in_map_iff. exists (p, m, k'). auto.
  - intros (a & b & -> & X). rewrite map_app. cbn. do 2 eexists. split; [reflexivity|]. rewrite map_map. intros I. apply in_map_iff in I. destruct I as ([[p' m'] k'] & E & I). cbn in E. symmetry in E. apply id_inj in E; [|assumption..]. destruct E as (<- & <-). exact (X k' I).
Qed.

Definition pending (s : py) : list nat := match py_running s with Some n => [n] | None => [] end ++ map fst (py_queue s).
Lemma py_steps_app reg es es' s : py_steps reg s (es ++ es') = match py_steps reg s es with Some s => py_steps reg s es' | None => None end.
Proof. revert s. induction es as [|e es IH]; intros s; cbn [app py_steps]; [reflexivity|]. destruct (py_step reg s e); [apply IH|reflexivity]. Qed.
Lemma arrivals_app es es' : arrivals (es ++ es') = arrivals es ++ arrivals es'.
Proof. induction es as [|[n r p m| |r] es IH]; cbn; congruence. Qed.
Lemma py_order reg es : forall s s', py_steps reg s es = Some s' -> map fst (py_results s') ++ pending s' = map fst (py_results s) ++ pending s ++ arrivals es.
Proof.
  induction es as [|e es IH]; intros s s'; cbn [py_steps arrivals]; [intros [= <-]; rewrite app_nil_r; reflexivity|]. destruct (py_step reg s e) as [t|] eqn:E; [|discriminate]. intros H. rewrite (IH _ _ H). clear IH H. unfold pending.
  destruct s as [q run calls res]. destruct e as [n r p m| |r]; cbn [py_step py_queue py_running py_calls py_results] in *.
  - injection E as <-. cbn [py_queue py_running py_results arrivals]. rewrite map_app, <- !app_assoc. reflexivity.
  - destruct run; [discriminate|]. destruct q as [|[n id] q]; [discriminate|]. destruct (get id reg); injection E as <-; cbn [py_queue py_running py_results arrivals map fst app]; [reflexivity|]. rewrite map_app, <- app_assoc. reflexivity.
  - destruct run as [n|]; [|discriminate]. injection E as <-. cbn [py_queue py_running py_results arrivals map fst app]. rewrite map_app, <- app_assoc. reflexivity.
Qed.
