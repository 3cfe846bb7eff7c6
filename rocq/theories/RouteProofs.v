(** Lemmas on registration, routing and the life of an application *)
From Verif Require Import Base Chars RouteModel RouteSpec.
From Verif Require ApiModel EnvModel EnvSpec EnvProofs Value.
Local Open Scope list_scope.

Lemma lower_iff m v : map EnvModel.lower m = chars (verb_name v) <-> names m v.
Proof.
  unfold names. rewrite <- EnvProofs.word_iff by (destruct v; repeat constructor; intros [? ?]; cbv in *; congruence).
  unfold EnvModel.eq_ignore_case. rewrite text_eqb_eq. destruct v; reflexivity.
Qed.
Lemma verb_of_iff m v : verb_of m = Some v <-> names m v.
Proof.
  rewrite <- lower_iff. unfold verb_of. generalize (map EnvModel.lower m). intros l.
  repeat match goal with |- context[text_eqb l ?t] => let Q := fresh "Q" in destruct (text_eqb l t) eqn:Q; [apply text_eqb_eq in Q; subst l; destruct v; split; intros H; try reflexivity; cbv in H; try discriminate H|] end.
  split; [discriminate|]. intros ->. exfalso. destruct v; cbn [verb_name] in *;
  match goal with E : text_eqb ?a ?a = false |- _ => assert (X : text_eqb a a = true) by (apply text_eqb_eq; reflexivity); congruence end.
Qed.
Lemma verb_eqb_eq a b : verb_eqb a b = true <-> a = b.
Proof. unfold verb_eqb. destruct (verb_eq_dec a b); split; congruence. Qed.
Lemma slash_iff p : starts_with (chars "/") p = true <-> exists rest, p = 47%N :: rest.
Proof. rewrite starts_with_spec. reflexivity. Qed.
Lemma names_fun m v w : names m v -> names m w -> v = w.
Proof. rewrite <- !verb_of_iff. congruence. Qed.

Section Router.
Variable valid : text -> bool.
Variable clash : text -> text -> bool.
Variable resolve : list text -> text -> option text.
Notation add_route := (add_route valid clash).
Notation register_all := (register_all valid clash).
Notation dispatch := (dispatch resolve).

Definition has (r : router) (p : text) (v : verb) : Prop := exists t, In (mk_route p v t) r.
Lemma has_iff r p v : has r p v <-> exists x, In x r /\ rt_path x = p /\ rt_verb x = v.
Proof. split; [intros (t & H); exists (mk_route p v t); auto|intros ([p' v' t] & H & <- & <-); exists t; exact H]. Qed.
Lemma add_route_iff r p v t r' : add_route r p v t = Ok r' <-> addable valid clash (has r) p v /\ r' = r ++ [mk_route p v t].
Proof.
  unfold RouteModel.add_route, addable. rewrite <- slash_iff. destruct (starts_with (chars "/") p); cbn [negb]; [|split; [discriminate|intros ((X & _) & _); discriminate]].
  destruct (valid p); cbn [negb]; [|split; [discriminate|intros ((_ & X & _) & _); discriminate]].
  destruct (existsb (fun x => negb (text_eqb (rt_path x) p) && clash (rt_path x) p) r) eqn:C.
  { split; [discriminate|]. intros ((_ & _ & _ & X) & _). exfalso. apply existsb_exists in C. destruct C as (x & Hx & E). apply andb_true_iff in E. destruct E as (E1 & E2).
    rewrite (X (rt_path x) (rt_verb x)) in E2; [discriminate| |]. { apply has_iff. eauto. } intros <-. apply negb_true_iff in E1.
    assert (text_eqb (rt_path x) (rt_path x) = true) by (apply text_eqb_eq; reflexivity). congruence. }
  destruct (existsb (fun x => text_eqb (rt_path x) p && verb_eqb (rt_verb x) v) r) eqn:D.
  { split; [discriminate|]. intros ((_ & _ & X & _) & _). exfalso. apply existsb_exists in D. destruct D as (x & Hx & E). apply andb_true_iff in E. destruct E as (E1 & E2).
    apply text_eqb_eq in E1. apply verb_eqb_eq in E2. apply X, has_iff. eauto. }
  split; [|intros (_ & ->); reflexivity]. intros [= <-]. split; [|reflexivity]. split; [reflexivity|]. split; [reflexivity|]. split.
  - intros H. apply has_iff in H. destruct H as (x & Hx & <- & <-). assert (existsb (fun y => text_eqb (rt_path y) (rt_path x) && verb_eqb (rt_verb y) (rt_verb x)) r = true); [|congruence].
    apply existsb_exists. exists x. split; [exact Hx|]. apply andb_true_iff. split; [apply text_eqb_eq|apply verb_eqb_eq]; reflexivity.
  - intros q w H N. apply has_iff in H. destruct H as (x & Hx & <- & <-). destruct (clash (rt_path x) p) eqn:E; [|reflexivity]. exfalso.
    assert (existsb (fun y => negb (text_eqb (rt_path y) p) && clash (rt_path y) p) r = true); [|congruence].
    apply existsb_exists. exists x. split; [exact Hx|]. rewrite E. rewrite (Value.text_eqb_neq _ _ N). reflexivity.
Qed.
Lemma add_route_cases r p v t : (exists r', add_route r p v t = Ok r') \/ add_route r p v t = Panic.
Proof. unfold RouteModel.add_route. repeat match goal with |- context[if ?b then _ else _] => destruct b end; eauto. Qed.

(** The routes of the handlers *)
Fixpoint news (hs : list ApiModel.handler) (k : nat) : router :=
  match hs with
  | [] => []
  | h :: hs => match verb_of (handler_method h) with Some v => [mk_route (handler_path h) v (User k)] | None => [] end ++ news hs (S k)
  end.
Lemma news_in hs : forall k x, In x (news hs k) <-> exists j h, nth_error hs j = Some h /\ names (handler_method h) (rt_verb x) /\ handler_path h = rt_path x /\ rt_to x = User (k + j).
Proof.
  induction hs as [|h hs IH]; intros k x; cbn [news].
  - split; [intros []|intros (j & h & H & _); destruct j; discriminate].
  - rewrite in_app_iff, IH. split.
    + intros [H|(j & h' & H & N & P & T)].
      * exists 0, h. rewrite Nat.add_0_r. destruct (verb_of (handler_method h)) as [v|] eqn:E; [|destruct H]. destruct H as [<-|[]]. apply verb_of_iff in E. auto.
      * exists (S j), h'. rewrite Nat.add_succ_r. auto.
    + intros (j & h' & H & N & P & T). destruct j as [|j]; cbn in H.
      * left. injection H as ->. apply verb_of_iff in N. rewrite N. left. destruct x as [p v t]. cbn in *. rewrite Nat.add_0_r in T. congruence.
      * right. exists j, h'. rewrite Nat.add_succ_r in T. auto.
Qed.
Definition uniq (r : router) : Prop := NoDup (map (fun x => (rt_path x, rt_verb x)) r).
Lemma uniq_add r p v t : uniq r -> ~ has r p v -> uniq (r ++ [mk_route p v t]).
Proof.
  unfold uniq. intros U N. rewrite map_app. cbn. induction r as [|x r IH]; cbn; [repeat constructor; intros []|]. cbn in U. apply NoDup_cons_iff in U. destruct U as (X & U). constructor.
  - rewrite in_app_iff. intros [H|[H|[]]]; [contradiction|]. injection H as H1 H2. apply N, has_iff. exists x. cbn. auto.
  - apply IH; [exact U|]. intros (t' & H). apply N. exists t'. right. exact H.
Qed.
Lemma register_all_ok hs : forall r k o, uniq r -> register_all (Some r) hs k = Ok o -> o = Some (r ++ news hs k) /\ uniq (r ++ news hs k).
Proof.
  induction hs as [|h hs IH]; intros r k o U; cbn [RouteModel.register_all news].
  - intros [= <-]. rewrite app_nil_r. auto.
  - unfold RouteModel.register. fold (handler_method h). fold (handler_path h). destruct (verb_of (handler_method h)) as [v|].
    + destruct (add_route r (handler_path h) v (User k)) as [r'|?|] eqn:A; cbn [omap obind]; try discriminate. apply add_route_iff in A. destruct A as ((_ & _ & N & _) & ->).
      intros H. rewrite app_assoc. apply IH; [apply uniq_add; assumption|exact H].
    + cbn [obind]. intros H. cbn [app]. apply IH; assumption.
Qed.
Lemma register_all_cases hs : forall r k, (exists o, register_all (Some r) hs k = Ok o) \/ register_all (Some r) hs k = Panic.
Proof.
  induction hs as [|h hs IH]; intros r k; cbn [RouteModel.register_all]; [eauto|]. unfold RouteModel.register.
  destruct (verb_of (fst (ApiModel.h_at h))) as [v|]; cbn [obind]; [|apply IH].
  destruct (add_route_cases r (snd (ApiModel.h_at h)) v (User k)) as [(r' & ->)| ->]; cbn [omap obind]; [apply IH|auto].
Qed.
Lemma addable_ext t t' p v : (forall q w, t q w <-> t' q w) -> addable valid clash t p v <-> addable valid clash t' p v.
Proof.
  intros E. unfold addable. rewrite (E p v). split; intros (A & B & C & D); (split; [exact A|split; [exact B|split; [exact C|intros q w H; apply (D q w); apply E, H]]]).
Qed.
Lemma register_all_iff hs : forall r k,
  (exists o, register_all (Some r) hs k = Ok o) <-> (forall j h v, nth_error hs j = Some h -> names (handler_method h) v -> addable valid clash (occupied r hs j) (handler_path h) v).
Proof.
  induction hs as [|h hs IH]; intros r k; cbn [RouteModel.register_all].
  { split; [intros _ j h v H; destruct j; discriminate|eauto]. }
  unfold RouteModel.register. fold (handler_method h). fold (handler_path h). destruct (verb_of (handler_method h)) as [v0|] eqn:V.
  - assert (E0 : forall q w, has r q w <-> occupied r (h :: hs) 0 q w).
    { intros q w. unfold occupied, has. split; [auto|]. intros [H|(j & h' & H & _)]; [exact H|lia]. }
    assert (ES : forall j q w, occupied (r ++ [mk_route (handler_path h) v0 (User k)]) hs j q w <-> occupied r (h :: hs) (S j) q w).
    { intros j q w. unfold occupied. split.
      - intros [(t & H)|(i & h' & L & H & P & N)].
        + apply in_app_iff in H. destruct H as [H|[[= <- <- <-]|[]]]; [left; eauto|]. right. exists 0, h. split; [lia|]. split; [reflexivity|]. split; [reflexivity|]. apply verb_of_iff, V.
        + right. exists (S i), h'. split; [lia|auto].
      - intros [(t & H)|(i & h' & L & H & P & N)]; [left; exists t; apply in_app_iff; auto|]. destruct i as [|i].
        + injection H as <-. left. exists (User k). apply in_app_iff. right. left. apply verb_of_iff in N. congruence.
        + right. exists i, h'. split; [lia|auto]. }
    destruct (add_route_cases r (handler_path h) v0 (User k)) as [(r' & A)|A]; rewrite A; cbn [omap obind].
    + apply add_route_iff in A. destruct A as (A & ->). rewrite IH. split.
      * intros H j h' v N M. destruct j as [|j]; cbn in N.
        -- injection N as <-. apply verb_of_iff in M. assert (v0 = v) as -> by congruence. apply (addable_ext _ _ _ _ E0), A.
        -- apply (addable_ext _ _ _ _ (ES j)), H; assumption.
      * intros H j h' v N M. apply (addable_ext _ _ _ _ (ES j)). apply (H (S j)); assumption.
    + split; [intros (o & X); discriminate|]. intros H. exfalso. specialize (H 0 h v0 eq_refl (proj1 (verb_of_iff _ _) V)). apply (addable_ext _ _ _ _ E0) in H.
      assert (X : add_route r (handler_path h) v0 (User k) = Ok (r ++ [mk_route (handler_path h) v0 (User k)])) by (apply add_route_iff; auto). congruence.
  - cbn [obind]. rewrite IH.
    assert (ES : forall j q w, occupied r hs j q w <-> occupied r (h :: hs) (S j) q w).
    { intros j q w. unfold occupied. split; (intros [H|(i & h' & L & H & P & N)]; [auto|right]).
      - exists (S i), h'. split; [lia|auto].
      - destruct i as [|i]; [injection H as <-; apply verb_of_iff in N; congruence|]. exists i, h'. split; [lia|auto]. }
    split; intros H j h' v N M.
    + destruct j as [|j]; cbn in N; [injection N as <-; apply verb_of_iff in M; congruence|]. apply (addable_ext _ _ _ _ (ES j)), H; assumption.
    + apply (addable_ext _ _ _ _ (ES j)). apply (H (S j)); assumption.
Qed.

Lemma find_route_in r p v x : find_route r p v = Some x -> In x r /\ rt_path x = p /\ rt_verb x = v.
Proof. intros H. apply find_some in H. destruct H as (H & E). apply andb_true_iff in E. rewrite text_eqb_eq, verb_eqb_eq in E. destruct E as (E1 & E2). split; [exact H|split; [exact E1|exact E2]]. Qed.
Lemma uniq_eq r x y : uniq r -> In x r -> In y r -> rt_path x = rt_path y -> rt_verb x = rt_verb y -> x = y.
Proof.
  unfold uniq. induction r as [|z r IH]; cbn; [contradiction|]. intros U. apply NoDup_cons_iff in U. destruct U as (U & V). intros [<-|X] [<-|Y] P Q; [reflexivity| | |].
  - exfalso. apply U. apply in_map_iff. exists y. split; [congruence|exact Y].
  - exfalso. apply U. apply in_map_iff. exists x. split; [congruence|exact X].
  - apply IH; assumption.
Qed.
Lemma find_route_uniq r x : uniq r -> In x r -> find_route r (rt_path x) (rt_verb x) = Some x.
Proof.
  intros U H. destruct (find_route r (rt_path x) (rt_verb x)) as [y|] eqn:F.
  - apply find_route_in in F. destruct F as (F & P & V). f_equal. eapply uniq_eq; eauto.
  - exfalso. pose proof (find_none _ _ F _ H) as X. cbn beta in X. assert (text_eqb (rt_path x) (rt_path x) && verb_eqb (rt_verb x) (rt_verb x) = true); [|congruence].
    apply andb_true_iff. split; [apply text_eqb_eq|apply verb_eqb_eq]; reflexivity.
Qed.
Lemma find_route_none r p v : find_route r p v = None -> ~ has r p v.
Proof.
  intros F H. apply has_iff in H. destruct H as (x & Hx & <- & <-). pose proof (find_none _ _ F _ Hx) as X. cbn beta in X.
  assert (text_eqb (rt_path x) (rt_path x) && verb_eqb (rt_verb x) (rt_verb x) = true); [|congruence].
  apply andb_true_iff. split; [apply text_eqb_eq|apply verb_eqb_eq]; reflexivity.
Qed.
Lemma dispatch_called r v path t : dispatch r v path = Called t -> exists x, In x r /\ rt_to x = t /\ resolve (map rt_path r) path = Some (rt_path x) /\ (rt_verb x = v \/ (v = Head /\ rt_verb x = Get)).
Proof.
  unfold RouteModel.dispatch. destruct (resolve _ _) as [p|]; [|discriminate]. destruct (find_route r p v) as [x|] eqn:F.
  - intros [= <-]. apply find_route_in in F. destruct F as (F & <- & <-). eauto 6.
  - destruct v; try discriminate. destruct (find_route r p Get) as [x|] eqn:G; [|discriminate]. intros [= <-]. apply find_route_in in G. destruct G as (G & <- & V). eauto 7.
Qed.

Lemma setup_routes_uniq s r : setup_routes valid clash s = Ok r -> uniq r.
Proof.
  unfold setup_routes. assert (E : uniq []) by constructor. destruct (ApiModel.sv_health s); cbn [obind].
  - destruct (add_route [] health_path Get Health) as [r0|?|] eqn:A; cbn [obind]; try discriminate. apply add_route_iff in A. destruct A as ((_ & _ & N & _) & ->).
    destruct (ApiModel.sv_ws s) as [[[p ?] ?]|].
    + intros B. apply add_route_iff in B. destruct B as ((_ & _ & M & _) & ->). apply uniq_add; [|exact M]. apply (uniq_add [] health_path Get Health); assumption.
    + intros [= <-]. apply (uniq_add [] health_path Get Health); assumption.
  - destruct (ApiModel.sv_ws s) as [[[p ?] ?]|].
    + intros B. apply add_route_iff in B. destruct B as ((_ & _ & M & _) & ->). apply (uniq_add []); assumption.
    + intros [= <-]. exact E.
Qed.
Lemma setup_routes_to s r x : setup_routes valid clash s = Ok r -> In x r -> rt_verb x = Get /\ (rt_to x = Health \/ rt_to x = WebSocket).
Proof.
  unfold setup_routes. destruct (ApiModel.sv_health s); cbn [obind].
  - destruct (add_route [] health_path Get Health) as [r0|?|] eqn:A; cbn [obind]; try discriminate. apply add_route_iff in A. destruct A as (_ & ->).
    destruct (ApiModel.sv_ws s) as [[[p ?] ?]|].
    + intros B. apply add_route_iff in B. destruct B as (_ & ->). cbn. intros [<-|[<-|[]]]; auto.
    + intros [= <-]. cbn. intros [<-|[]]; auto.
  - destruct (ApiModel.sv_ws s) as [[[p ?] ?]|].
    + intros B. apply add_route_iff in B. destruct B as (_ & ->). cbn. intros [<-|[]]; auto.
    + intros [= <-]. intros [].
Qed.
End Router.

(** * The life of an application *)
Section Life.
Variable valid : text -> bool.
Variable clash : text -> text -> bool.
Notation step := (step valid clash).
Notation steps := (steps valid clash).

Definition at_task (g : nat -> task -> task) (b : nat) (ts : list task) : list task := map (fun p => g (fst p) (snd p)) (combine (seq b (length ts)) ts).
Lemma at_task_nth g ts : forall b j, nth_error (at_task g b ts) j = match nth_error ts j with Some t => Some (g (b + j) t) | None => None end.
Proof.
  induction ts as [|t ts IH]; intros b j; [destruct j; reflexivity|]. destruct j as [|j]; cbn; [rewrite Nat.add_0_r; reflexivity|].
  rewrite <- (Nat.add_succ_comm b j). apply (IH (S b)).
Qed.
Lemma on_task_nth f o ts j : nth_error (on_task f o ts) j = match nth_error ts j with Some t => Some (if match o with Some i => Nat.eqb j i | None => false end then f t else t) | None => None end.
Proof.
  destruct o as [i|]; [|cbn; destruct (nth_error ts j); reflexivity]. exact (at_task_nth (fun k t => if Nat.eqb k i then f t else t) ts 0 j).
Qed.
Lemma on_task_length f o ts : length (on_task f o ts) = length ts.
Proof. destruct o; [|reflexivity]. cbn. rewrite map_length, combine_length, seq_length. lia. Qed.

(** Every task still to be told is the one of a signal that is kept, and a kept signal's task is
    alive and not told yet *)
Definition kept (l : life) : Prop :=
  (forall i t, nth_error (lf_tasks l) i = Some t -> tk_told t = false -> lf_signal l = Some i \/ lf_local_signal l = Some i)
  /\ (forall i, lf_signal l = Some i \/ lf_local_signal l = Some i -> exists t, nth_error (lf_tasks l) i = Some t /\ tk_told t = false)
  /\ (forall i, lf_signal l = Some i -> lf_local_signal l = Some i -> False).
Definition alive (l : life) : Prop := forall i t, nth_error (lf_tasks l) i = Some t -> tk_told t = false -> tk_alive t = true.

Lemma start_ok r sig ts b sig' ts' : start r sig ts b = Ok (sig', ts') ->
  (r = None /\ sig' = sig /\ ts' = ts) \/ (exists x, r = Some x /\ sig' = Some (length ts) /\ ts' = on_task tell sig ts ++ [mk_task x false true]).
Proof. unfold start. destruct r as [x|]; [|intros [= <- <-]; auto]. destruct b; [|discriminate]. intros [= <- <-]. right. eauto. Qed.
Lemma nth_snoc {A} (l : list A) x i t : nth_error (l ++ [x]) i = Some t -> (i < length l /\ nth_error l i = Some t) \/ (i = length l /\ t = x).
Proof.
  intros H. destruct (Nat.lt_ge_cases i (length l)) as [L|L]; [rewrite nth_error_app1 in H by exact L; auto|]. rewrite nth_error_app2 in H by exact L.
  destruct (i - length l) as [|n] eqn:D; cbn in H; [|destruct n; discriminate]. injection H as <-. right. split; [lia|reflexivity].
Qed.
Lemma nth_lt {A} (l : list A) i t : nth_error l i = Some t -> i < length l.
Proof. intros H. apply nth_error_Some. congruence. Qed.
Lemma start_kept r sig o ts b sig' ts' R R' :
  start r sig ts b = Ok (sig', ts') -> kept (mk_life R R' sig o ts) -> kept (mk_life R R' sig' o ts').
Proof.
  intros H (K1 & K2 & K3). cbn in *. apply start_ok in H. destruct H as [(-> & -> & ->)|(x & -> & -> & ->)]; [split; [|split]; assumption|].
  split; [|split]; cbn.
  - intros i t H T. apply nth_snoc in H. rewrite on_task_length in H. destruct H as [(L & H)|(-> & ->)]; [|auto]. rewrite on_task_nth in H. destruct (nth_error ts i) as [t0|] eqn:N; [|discriminate]. injection H as <-.
    destruct sig as [s|]; [destruct (Nat.eqb_spec i s) as [->|D]; [discriminate T|]|].
    + destruct (K1 i t0 N T) as [[= ->]|S']; [contradiction|auto].
    + destruct (K1 i t0 N T) as [S'|S']; [discriminate|auto].
  - intros i [[= <-]|H].
    + exists (mk_task x false true). split; [|reflexivity]. rewrite nth_error_app2 by (rewrite on_task_length; lia). rewrite on_task_length, Nat.sub_diag. reflexivity.
    + destruct (K2 i (or_intror H)) as (t & N & T). exists t. split; [|exact T]. rewrite nth_error_app1 by (rewrite on_task_length; eapply nth_lt, N). rewrite on_task_nth, N. destruct sig as [s|]; [|reflexivity].
      destruct (Nat.eqb_spec i s) as [->|D]; [exfalso; eapply K3; eauto|reflexivity].
  - intros i [= <-] H. destruct (K2 _ (or_intror H)) as (t & N & T). apply nth_lt in N. lia.
Qed.
Lemma kept_swap R R' s o ts : kept (mk_life R R' s o ts) -> kept (mk_life R R' o s ts).
Proof. intros (K1 & K2 & K3). split; [|split]; cbn in *; [intros i t A B; destruct (K1 i t A B); auto|intros i [A|A]; apply K2; auto|intros i A B; eapply K3; eauto]. Qed.
Lemma kept_routes R R' Q Q' s o ts : kept (mk_life R R' s o ts) -> kept (mk_life Q Q' s o ts).
Proof. intros K. exact K. Qed.
Lemma start_alive r sig o o' ts b sig' ts' R R' : start r sig ts b = Ok (sig', ts') -> alive (mk_life R R' o o' ts) -> alive (mk_life R R' o o' ts').
Proof.
  intros H A. apply start_ok in H. destruct H as [(-> & -> & ->)|(x & -> & -> & ->)]; [exact A|]. intros i t H T. cbn in *. apply nth_snoc in H. destruct H as [(_ & H)|(_ & ->)]; [|reflexivity].
  rewrite on_task_nth in H. destruct (nth_error ts i) as [t0|] eqn:N; [|discriminate]. injection H as <-. destruct sig as [s|]; [destruct (Nat.eqb i s); [discriminate T|]|]; apply (A i t0 N T).
Qed.
Lemma stop_ok sig ts ts' : stop sig ts = Ok ts' -> ts' = on_task tell sig ts.
Proof. unfold stop. destruct sig as [i|]; [|intros [= <-]; reflexivity]. destruct (nth_error ts i) as [t|]; [|discriminate]. destruct (tk_alive t); [|discriminate]. intros [= <-]. reflexivity. Qed.
Lemma stop_kept R R' s o ts ts' : stop s ts = Ok ts' -> kept (mk_life R R' s o ts) -> kept (mk_life R R' None o ts').
Proof.
  intros H (K1 & K2 & K3). apply stop_ok in H. subst ts'. cbn in *. split; [|split]; cbn.
  - intros i t H T. rewrite on_task_nth in H. destruct (nth_error ts i) as [t0|] eqn:N; [|discriminate]. injection H as <-.
    destruct s as [s|]; [destruct (Nat.eqb_spec i s) as [->|D]; [discriminate T|]|]; (destruct (K1 i t0 N T) as [S'|S']; [congruence|auto]).
  - intros i [H|H]; [discriminate|]. destruct (K2 i (or_intror H)) as (t & N & T). exists t. split; [|exact T]. rewrite on_task_nth, N. destruct s as [s|]; [|reflexivity].
    destruct (Nat.eqb_spec i s) as [->|D]; [exfalso; eapply K3; eauto|reflexivity].
  - discriminate.
Qed.
Lemma stop_alive R R' s o o' ts ts' : stop s ts = Ok ts' -> alive (mk_life R R' o o' ts) -> alive (mk_life R R' o o' ts').
Proof.
  intros H A. apply stop_ok in H. subst ts'. intros i t H T. cbn in H. rewrite on_task_nth in H. destruct (nth_error ts i) as [t0|] eqn:N; [|discriminate]. injection H as <-.
  destruct s as [s|]; [destruct (Nat.eqb i s); [discriminate T|]|]; apply (A i t0 N T).
Qed.
Lemma ended_nth i ts j : nth_error (map (fun p => if Nat.eqb (fst p) i && tk_told (snd p) then finish (snd p) else snd p) (combine (seq 0 (length ts)) ts)) j
  = match nth_error ts j with Some t => Some (if Nat.eqb j i && tk_told t then finish t else t) | None => None end.
Proof. exact (at_task_nth (fun k t => if Nat.eqb k i && tk_told t then finish t else t) ts 0 j). Qed.
Lemma step_kept l a l' : step l a = Ok l' -> kept l -> kept l'.
Proof.
  destruct l as [R R' s o ts]. destruct a as [sv lo|p m t|b b'| |i|]; cbn [RouteModel.step lf_routes lf_local lf_signal lf_local_signal lf_tasks].
  - destruct (match sv with Some _ => _ | None => _ end) as [r|?|]; cbn [obind]; try discriminate. intros [= <-] K. exact K.
  - destruct (register _ _ _ _ _ _) as [r|?|]; cbn [obind]; try discriminate. intros [= <-] K. exact K.
  - destruct (start R s ts b) as [[s1 t1]|?|] eqn:S1; cbn [obind]; try discriminate. destruct (start R' o t1 b') as [[s2 t2]|?|] eqn:S2; cbn [obind]; try discriminate. intros [= <-] K.
    apply kept_swap. eapply start_kept; [exact S2|]. apply kept_swap. eapply start_kept; [exact S1|exact K].
  - destruct (stop s ts) as [t1|?|] eqn:S1; cbn [obind]; try discriminate. destruct (stop o t1) as [t2|?|] eqn:S2; cbn [obind]; try discriminate. intros [= <-] K.
    apply kept_swap. eapply stop_kept; [exact S2|]. apply kept_swap. eapply stop_kept; [exact S1|exact K].
  - intros [= <-] (K1 & K2 & K3). split; [|split; [|exact K3]]; cbn in *.
    + intros j t H T. rewrite ended_nth in H. destruct (nth_error ts j) as [t0|] eqn:N; [|discriminate]. injection H as <-. apply (K1 j t0 N). destruct (Nat.eqb j i && tk_told t0); exact T.
    + intros j H. destruct (K2 j H) as (t & N & T). exists t. rewrite ended_nth, N, T, andb_false_r. auto.
  - intros [= <-] (K1 & K2 & K3). split; [|split; [|exact K3]]; cbn in *.
    + intros j t H T. rewrite nth_error_map in H. destruct (nth_error ts j) as [t0|] eqn:N; [|discriminate]. injection H as <-. apply (K1 j t0 N T).
    + intros j H. destruct (K2 j H) as (t & N & T). exists (finish t). rewrite nth_error_map, N. auto.
Qed.
Lemma step_alive l a l' : step l a = Ok l' -> a <> RuntimeGone -> alive l -> alive l'.
Proof.
  destruct l as [R R' s o ts]. destruct a as [sv lo|p m t|b b'| |i|]; cbn [RouteModel.step lf_routes lf_local lf_signal lf_local_signal lf_tasks].
  - destruct (match sv with Some _ => _ | None => _ end) as [r|?|]; cbn [obind]; try discriminate. intros [= <-] _ K. exact K.
  - destruct (register _ _ _ _ _ _) as [r|?|]; cbn [obind]; try discriminate. intros [= <-] _ K. exact K.
  - destruct (start R s ts b) as [[s1 t1]|?|] eqn:S1; cbn [obind]; try discriminate. destruct (start R' o t1 b') as [[s2 t2]|?|] eqn:S2; cbn [obind]; try discriminate. intros [= <-] _ K.
    refine (start_alive _ _ _ _ _ _ _ _ _ _ S2 _). refine (start_alive _ _ _ _ _ _ _ _ _ _ S1 _). exact K.
  - destruct (stop s ts) as [t1|?|] eqn:S1; cbn [obind]; try discriminate. destruct (stop o t1) as [t2|?|] eqn:S2; cbn [obind]; try discriminate. intros [= <-] _ K.
    refine (stop_alive _ _ _ _ _ _ _ S2 _). refine (stop_alive _ _ _ _ _ _ _ S1 _). exact K.
  - intros [= <-] _ K. intros j t H T. cbn in H. rewrite ended_nth in H. destruct (nth_error ts j) as [t0|] eqn:N; [|discriminate]. injection H as <-. destruct (Nat.eqb j i && tk_told t0) eqn:E; [|exact (K j t0 N T)].
    apply andb_true_iff in E. destruct E as (_ & E). cbn in T. congruence.
  - congruence.
Qed.
Lemma new_kept : kept new.
Proof. split; [|split]; cbn; [intros i t H; destruct i; discriminate|intros i [H|H]; discriminate|discriminate]. Qed.
Lemma new_alive : alive new.
Proof. intros i t H. destruct i; discriminate. Qed.
Lemma steps_inv acts : forall l l', steps l acts = Ok l' -> kept l -> kept l' /\ (~ In RuntimeGone acts -> alive l -> alive l').
Proof.
  induction acts as [|a acts IH]; intros l l'; cbn [RouteModel.steps]; [intros [= <-]; auto|]. destruct (step l a) as [m|?|] eqn:A; cbn [obind]; try discriminate. intros H K.
  destruct (IH m l' H (step_kept _ _ _ A K)) as (K' & L). split; [exact K'|]. intros N X. apply L; [intros Y; apply N; right; exact Y|]. eapply step_alive; [exact A| |exact X]. intros ->. apply N. left. reflexivity.
Qed.
Lemma stop_alive_ok R R' s o ts : kept (mk_life R R' s o ts) -> alive (mk_life R R' s o ts) -> exists ts', stop s ts = Ok ts'.
Proof.
  intros (_ & K2 & _) A. unfold stop. destruct s as [i|]; [|eauto]. destruct (K2 i (or_introl eq_refl)) as (t & N & T). cbn in *. rewrite N, (A i t N T). eauto.
Qed.
Lemma steps_app acts acts' l : steps l (acts ++ acts') = obind (steps l acts) (fun l => steps l acts').
Proof. revert l. induction acts as [|a acts IH]; intros l; cbn [app RouteModel.steps obind]; [reflexivity|]. destruct (step l a); cbn [obind]; [apply IH|reflexivity|reflexivity]. Qed.
End Life.
