(** C161: how a process that validates ends *)
From Verif Require Import Base Chars ConfigModel ConfigSpec CliModel CliSpec CliProofs CliProps CmdModel CmdSpec CmdProofs CmdProps ExitModel ExitSpec.
Local Open Scope list_scope.

(** ** The terminal program is that of CliModel.v, but for the messages that end it *)
Definition not_end_msg (x : msg) : bool := match x with MQuit => false | _ => true end.
Definition not_end (o : obs) : bool := match o with OMsg MQuit => false | _ => true end.
Lemma filter_at {A} (p : A -> bool) (x : A) l : forall a b, p x = true -> filter p l = a ++ x :: b ->
  exists u v, l = u ++ x :: v /\ filter p u = a /\ filter p v = b.
Proof.
  induction l as [|y l IH]; intros a b P H; [destruct a; discriminate|]. cbn in H. destruct (p y) eqn:E.
  - destruct a as [|z a]; [injection H as -> <-; exists [], l; auto|]. injection H as -> H. destruct (IH a b P H) as (u & v & -> & U & V). exists (z :: u), v. cbn. rewrite E, U. auto.
  - destruct (IH a b P H) as (u & v & -> & U & V). exists (y :: u), v. cbn. rewrite E. auto.
Qed.
Lemma same_out (x : msg) l l' ms : not_end_msg x = true -> filter not_end_msg l = filter not_end_msg l' -> out_of x l ms ->
  exists ms', out_of x l' ms' /\ filter not_end_msg ms = filter not_end_msg ms'.
Proof.
  intros P E (u & v & -> & ->). rewrite filter_app in E. cbn in E. rewrite P in E. symmetry in E. destruct (filter_at _ _ _ _ _ P E) as (u' & v' & -> & U & V).
  exists (u' ++ v'). split; [exists u', v'; auto|]. now rewrite !filter_app, U, V.
Qed.
Lemma simulated f d tr s : trun (t_start f d) tr s -> exists so, orun (o_start f d) (filter not_end tr) so /\
  o_model so = o_model (t_o s) /\ o_cmds so = o_cmds (t_o s) /\ o_chans so = o_chans (t_o s) /\ o_over so = false /\
  filter not_end_msg (o_inbox (t_o s)) = filter not_end_msg (o_inbox so).
Proof.
  intros H. induction H as [|tr s1 es s2 H IH T].
  - exists (o_start f d). split; [apply orun_refl|]. repeat split.
  - destruct IH as (so & R & M & C & K & V & I). rewrite filter_app. destruct T as [s es o T|s|s O].
    + destruct T; cbn [t_o o_model o_cmds o_chans o_inbox o_over send] in *; rewrite ?filter_app.
      1-11: try rewrite <- C in *; try rewrite <- K in *.
      * exists (mk_o (o_model so) (o_cmds so) (o_inbox so) c (o_over so)). split; [eapply orun_step; [exact R|now apply O_client]|]. repeat split; cbn; auto.
      * eexists. split; [eapply orun_step; [exact R|apply (O_key so x); assumption]|]. cbn. rewrite filter_app, I. repeat split; auto.
      * eexists. split; [eapply orun_step; [exact R|eapply (O_select so); eassumption]|]. cbn. rewrite filter_app, I. repeat split; auto.
      * eexists. split; [eapply orun_step; [exact R|eapply (O_clear so); eassumption]|]. cbn. rewrite filter_app, I. repeat split; auto.
      * eexists. split; [eapply orun_step; [exact R|eapply (O_quit so); eassumption]|]. cbn. rewrite filter_app, I. repeat split; auto.
      * eexists. split; [eapply orun_step; [exact R|eapply (O_start_ok so); eassumption]|]. cbn. rewrite filter_app, I. repeat split; auto.
      * eexists. split; [eapply orun_step; [exact R|eapply (O_start_not_created so); eassumption]|]. cbn. rewrite filter_app, I. repeat split; auto.
      * eexists. split; [eapply orun_step; [exact R|eapply (O_start_not_opened so); eassumption]|]. cbn. rewrite filter_app, I. repeat split; auto.
      * eexists. split; [eapply orun_step; [exact R|eapply (O_wait so); eassumption]|]. cbn. rewrite filter_app, I. repeat split; auto.
      * eexists. split; [eapply orun_step; [exact R|eapply (O_check_time so); eassumption]|]. cbn. rewrite filter_app, I. repeat split; auto.
      * eexists. split; [eapply orun_step; [exact R|eapply (O_check so); eassumption]|]. cbn. rewrite filter_app, I. repeat split; auto.
      * exists so. cbn [filter not_end]. rewrite app_nil_r. split; [exact R|]. repeat split; auto. rewrite <- I. destruct H1 as (u & v & -> & ->). now rewrite !filter_app.
      * assert (P: not_end_msg x = true) by (destruct x; try reflexivity; congruence). assert (P': not_end (OMsg x) = true) by (destruct x; try reflexivity; congruence).
        destruct (same_out x _ _ _ P I H1) as (ms' & Q & F). cbn [filter]. rewrite P'. rewrite <- M in *.
        eexists. split; [eapply orun_step; [exact R|eapply (O_msg so ms' x); eassumption]|]. cbn. rewrite C. repeat split; auto.
    + exists so. rewrite app_nil_r. split; [exact R|]. repeat split; auto. cbn. rewrite filter_app, I. cbn. now rewrite app_nil_r.
    + exists so. rewrite app_nil_r. split; [exact R|]. repeat split; auto.
Qed.
Lemma viewing_filter a : forall b, viewing b (filter not_end a) = viewing b a.
Proof. induction a as [|o a IH]; intros b; [reflexivity|]. destruct o as [| | | |x]; cbn; try apply IH. destruct x; cbn; apply IH. Qed.
Lemma seen_filter b tr e : error_seen b (filter not_end tr) e <-> error_seen b tr e.
Proof.
  unfold error_seen. split.
  - intros (x & y & H & V). destruct (filter_at not_end (OMsg (MErr (Some e))) tr x y eq_refl H) as (u & v & -> & U & _). exists u, v. split; [reflexivity|]. now rewrite <- viewing_filter, U.
  - intros (x & y & -> & V). exists (filter not_end x), (filter not_end y). split; [now rewrite filter_app|]. now rewrite viewing_filter.
Qed.
Lemma value_updated f d tr s : trun (t_start f d) tr s -> t_value s = updates tr.
Proof.
  intros H. induction H as [|tr s1 es s2 H IH T]; [reflexivity|]. unfold updates in *. rewrite existsb_app. destruct T; cbn [t_value existsb]; rewrite IH, ?Bool.orb_false_r; reflexivity.
Qed.
Lemma updates_in tr : updates tr = true <-> exists x, x <> MQuit /\ In (OMsg x) tr.
Proof.
  unfold updates. rewrite existsb_exists. split.
  - intros (o & I & H). destruct o as [| | | |x]; try discriminate. exists x. split; [intros ->; discriminate|exact I].
  - intros (x & N & I). exists (OMsg x). split; [exact I|]. destruct x; try reflexivity. congruence.
Qed.
Lemma over_how f d tr s : trun (t_start f d) tr s -> o_over (t_o s) = true -> t_failed s = true \/ In (OMsg MQuit) tr.
Proof.
  intros H. induction H as [|tr s1 es s2 H IH T]; intros O; [destruct f, d; discriminate|]. rewrite in_app_iff. destruct T as [s es o T|s|s X]; cbn [t_o t_failed] in *; [|destruct (IH O); auto|auto].
  destruct T; cbn [o_over send] in *; try (destruct (IH O); tauto); try discriminate. right. right. now left.
Qed.
Lemma view_start f d : m_view (o_model (o_start (chars f) d)) = shown_at_once f d.
Proof. unfold o_start, shown_at_once. destruct f; cbn; destruct d; reflexivity. Qed.

Section Process.
Variable open_file : string -> option string.
Variable decode : file_format -> string -> option (smap string).
Variable env : string -> option string.
Variable goos : string.
Notation execute := (CmdModel.execute open_file decode env goos).
Notation process := (ExitModel.process open_file decode env goos).
Notation asks := (asks_to_validate open_file decode env goos).

Lemma asked args f d : asks args f d -> exists c, execute args = Ok (StartValidate f d c).
Proof. intros (c & H). exists c. now apply C129_runs. Qed.

(** Where its output is not a terminal, a process that validates never crashes; it succeeds exactly if
    its log file could be opened and the engine closed the stream, and otherwise ends with status 1
    and the reason. *)
Theorem C161_piped : forall w args f d v e, asks args f d -> w_terminal w = false -> process w args v e ->
  (e = Exit 0 None /\ exists tr, v = Piped (tr ++ [AClosed])) \/
  (e = Exit 1 (Some FLog) /\ w_log w = false /\ v = Nothing) \/
  (exists tr a x, v = Piped (tr ++ [a]) /\ stops a (Some x) /\ e = Exit 1 (Some (FEngine x))).
Proof.
  intros w args f d v e A T P. destruct (asked _ _ _ A) as (c & X).
  destruct P as [er E|E|a E G|l b E|f' d' c' E L|f' d' c' tr s o E L W H D|f' d' c' E L W O|f' d' c' tr s E L W O H V]; rewrite X in E; try discriminate.
  - injection E as <-. destruct G.
  - right. left. auto.
  - injection E as <- <- <-. apply (C05_result _ _ _ o) in H. apply H in D as (tr' & a & -> & S). destruct o as [x|].
    + right. right. exists tr', a, x. auto.
    + left. split; [reflexivity|]. inversion S. subst a. eauto.
  - congruence.
  - congruence.
Qed.
(** In a terminal: it succeeds only if the session was ended and no error came while results were
    shown; an error that came then is a failure; and a failure for the engine names an error that came then. *)
Theorem C161_terminal : forall w args f d v e, asks args f d -> w_terminal w = true -> process w args v e ->
  (e = Exit 0 None -> w_log w = true /\ w_output w = true /\ exists tr, v = Shown tr /\ (exists x, x <> MQuit /\ In (OMsg x) tr) /\ In (OMsg MQuit) tr /\ forall x, ~ error_seen (shown_at_once f d) tr x) /\
  (forall tr x, v = Shown tr -> error_seen (shown_at_once f d) tr x -> exists r, e = Exit 1 (Some r)) /\
  (forall x, e = Exit 1 (Some (FEngine x)) -> exists tr, v = Shown tr /\ error_seen (shown_at_once f d) tr x) /\
  (e = Crash -> exists tr, v = Shown tr /\ forall x, In (OMsg x) tr -> x = MQuit).
Proof.
  intros w args f d v e A T P. destruct (asked _ _ _ A) as (c & X).
  destruct P as [er E|E|a E G|l b E|f' d' c' E L|f' d' c' tr s o E L W H D|f' d' c' E L W O|f' d' c' tr s E L W O H V]; rewrite X in E; try discriminate.
  - injection E as <-. destruct G.
  - repeat split; discriminate.
  - congruence.
  - repeat split; discriminate.
  - injection E as <- <- <-. destruct (simulated _ _ _ _ H) as (so & R & M & _ & _ & _ & _). pose proof (C06_error _ _ _ _ R) as C6. cbn zeta in C6. rewrite view_start in C6. destruct C6 as [C1 C2].
    assert (XE: exit_error so = exit_error (t_o s)) by (unfold exit_error; now rewrite M). rewrite XE in C1, C2.
    assert (C1': exit_error (t_o s) <> None <-> exists x, error_seen (shown_at_once f d) tr x). { rewrite C1. split; intros (x & Y); exists x; now apply seen_filter. }
    assert (C2': forall x, exit_error (t_o s) = Some x -> error_seen (shown_at_once f d) tr x). { intros x Y. now apply seen_filter, C2. }
    pose proof (value_updated _ _ _ _ H) as U. unfold t_end.
    assert (Z: forall x, error_seen (shown_at_once f d) tr x -> updates tr = true).
    { intros x (p & q & -> & _). apply updates_in. exists (MErr (Some x)). split; [discriminate|]. apply in_app_iff. right. now left. }
    pose proof (over_how _ _ _ _ H V) as OV. destruct (t_failed s) eqn:F; [|destruct OV as [OV|OV]; [discriminate|]; rewrite U; destruct (updates tr) eqn:UT].
    + cbn. split; [discriminate|]. split; [eauto|]. split; discriminate.
    + apply updates_in in UT. destruct (exit_error (t_o s)) as [x|] eqn:XX; cbn.
      * split; [discriminate|]. split; [eauto|]. split; [|discriminate]. intros y [= <-]. eauto.
      * split; [intros _; split; [exact L|]; split; [exact O|]; exists tr; split; [reflexivity|]; split; [exact UT|]; split; [exact OV|]; intros x Y; now apply (proj2 C1'); [exists x|]|].
        split; [intros tr' x [= <-] Y; exfalso; now apply (proj2 C1'); [exists x|]|]. split; discriminate.
    + split; [discriminate|]. split; [intros tr' x [= <-] Y; specialize (Z x Y); congruence|]. split; [discriminate|]. intros _. exists tr. split; [reflexivity|].
      intros x I. destruct x; try reflexivity; exfalso; apply Bool.not_true_iff_false in UT; apply UT, updates_in; eexists; (split; [|exact I]); discriminate.
Qed.
(** Where the current directory cannot be written to, nothing can be validated, as the log file
    cannot be opened; nor, in a terminal, if a second one cannot. *)
Theorem C161_directory_refuted : forall w args f d v e, asks args f d -> w_log w = false \/ (w_terminal w = true /\ w_output w = false) ->
  process w args v e -> v = Nothing /\ exists r, e = Exit 1 (Some r).
Proof.
  intros w args f d v e A T P. destruct (asked _ _ _ A) as (c & X).
  destruct P as [er E|E|a E G|l b E|f' d' c' E L|f' d' c' tr s o E L W H D|f' d' c' E L W O|f' d' c' tr s E L W O H V]; rewrite X in E; try discriminate; cbn; eauto.
  - injection E as <-. destruct G.
  - destruct T as [T|[T _]]; congruence.
  - destruct T as [T|[_ T]]; congruence.
Qed.
(** A process in a terminal that is asked to terminate before its first message crashes; *)
Theorem C161_crash_refuted : forall w args f d, asks args f d -> w_log w = true -> w_terminal w = true -> w_output w = true ->
  process w args (Shown [OMsg MQuit]) Crash.
Proof.
  intros w args f d A L T O. destruct (asked _ _ _ A) as (c & X).
  set (s := t_start (chars f) d). set (s1 := mk_t (send (t_o s) (o_cmds (t_o s)) [MQuit] (o_chans (t_o s))) (t_value s) (t_failed s)).
  assert (R: trun s [OMsg MQuit] (mk_t (mk_o (o_model (t_o s1)) (o_cmds (t_o s1)) [] (o_chans (t_o s1)) true) false false)).
  { change [OMsg MQuit] with (([] ++ []) ++ [OMsg MQuit]). eapply trun_step; [eapply trun_step; [apply trun_refl|apply T_terminate]|].
    change false with (t_value s1 || updates [OMsg MQuit]) at 1. apply T_step. apply O_end; [now destruct f, d|]. exists [], []. split; [now destruct f, d|reflexivity]. }
  change Crash with (t_end (mk_t (mk_o (o_model (t_o s1)) (o_cmds (t_o s1)) [] (o_chans (t_o s1)) true) false false)).
  eapply P_terminal; eauto.
Qed.
(** and one that is asked later, before anything was validated, reports success. *)
Theorem C161_terminated_refuted : forall w args f d, asks args f d -> w_log w = true -> w_terminal w = true -> w_output w = true ->
  exists tr, process w args (Shown tr) (Exit 0 None) /\ nothing_asked (Shown tr).
Proof.
  intros w args f d A L T O. destruct (asked _ _ _ A) as (c & X). exists [OMsg MOther; OMsg MQuit]. split; [|reflexivity].
  set (s := t_start (chars f) d).
  assert (I0: o_inbox (t_o s) = []) by now destruct f, d. assert (V0: o_over (t_o s) = false) by now destruct f, d.
  set (s1 := mk_t (send (t_o s) (o_cmds (t_o s)) [MOther] (o_chans (t_o s))) false false).
  destruct (update (o_model (t_o s)) MOther) as [m cs] eqn:UP.
  set (s2 := mk_t (mk_o m (o_cmds (t_o s) ++ cs) [] (o_chans (t_o s)) false) true false).
  set (s3 := mk_t (send (t_o s2) (o_cmds (t_o s2)) [MQuit] (o_chans (t_o s2))) true false).
  set (s4 := mk_t (mk_o m (o_cmds (t_o s2)) [] (o_chans (t_o s)) true) true false).
  assert (R1: trun s [] s1). { change (@nil obs) with (@nil obs ++ []). eapply trun_step; [apply trun_refl|]. unfold s1. change false with (t_value s || updates []) at 1. change false with (t_failed s). apply T_step, O_key. left. cbn. auto. }
  assert (R2: trun s [OMsg MOther] s2). { change [OMsg MOther] with ([] ++ [OMsg MOther]). eapply trun_step; [exact R1|]. unfold s2. change true with (t_value s1 || updates [OMsg MOther]). change false with (t_failed s1) at 2. apply T_step.
    apply (O_msg (t_o s1) [] MOther m cs); [exact V0|exists [], []; split; [change (o_inbox (t_o s) ++ [MOther] = [MOther]); now rewrite I0|reflexivity]|discriminate|exact UP]. }
  assert (R3: trun s [OMsg MOther] s3). { change [OMsg MOther] with ([OMsg MOther] ++ []). eapply trun_step; [exact R2|]. apply T_terminate. }
  assert (R4: trun s [OMsg MOther; OMsg MQuit] s4). { change [OMsg MOther; OMsg MQuit] with ([OMsg MOther] ++ [OMsg MQuit]). eapply trun_step; [exact R3|]. unfold s4. change true with (t_value s3 || updates [OMsg MQuit]) at 2. change false with (t_failed s3). apply T_step.
    apply (O_end (t_o s3) []); [reflexivity|]. exists [], []. split; reflexivity. }
  assert (E: t_end s4 = Exit 0 None). { unfold t_end, s4, exit_error. cbn. assert (Y: m_error m = None); [|now rewrite Y]. cbn in UP. destruct f, d; cbn in UP; injection UP as <- <-; reflexivity. }
  rewrite <- E. eapply P_terminal; eauto.
Qed.
(** Whatever the command line, a process crashes only in this way. *)
Theorem C161_crashes : forall w args v, process w args v Crash -> w_terminal w = true /\ exists tr, v = Shown tr /\ forall x, In (OMsg x) tr -> x = MQuit.
Proof.
  intros w args v P. remember Crash as e eqn:C.
  destruct P as [er E|E|a E G|l b E|f' d' c' E L|f' d' c' tr s o E L W H D|f' d' c' E L W O|f' d' c' tr s E L W O H V]; try discriminate.
  - exfalso. revert E. apply C129_never_panics.
  - now destruct b.
  - now destruct o.
  - split; [exact W|]. exists tr. split; [reflexivity|]. pose proof (value_updated _ _ _ _ H) as U. unfold t_end in C. destruct (t_failed s); [discriminate|]. destruct (t_value s); [destruct (exit_error (t_o s)); discriminate|].
    intros x I. destruct x; try reflexivity; exfalso; symmetry in U; apply Bool.not_true_iff_false in U; apply U, updates_in; eexists; (split; [|exact I]); discriminate.
Qed.
(** Every command line can come to an end, wherever it is run. *)
Theorem C161_ends : forall w args, exists v e, process w args v e.
Proof.
  intros w args. destruct (execute args) as [a|x|] eqn:E.
  - destruct a as [| | |lang|f d c]; try (exists Nothing, (returned None); eapply P_other; [exact E|exact I]).
    + exists Nothing, (returned None). exact (P_init _ _ _ _ w args _ false E).
    + destruct (w_log w) eqn:L; [|exists Nothing, (returned (Some FLog)); eapply P_no_log; eassumption].
      destruct (w_terminal w) eqn:T.
      * destruct (w_output w) eqn:O; [|exists Nothing, (returned (Some FOutput)); eapply P_no_output; eassumption].
        assert (S: o_over (t_o (mk_t (mk_o (o_model (o_start (chars f) d)) (o_cmds (o_start (chars f) d)) (o_inbox (o_start (chars f) d)) (o_chans (o_start (chars f) d)) true) false true)) = true) by reflexivity.
        eexists (Shown ([] ++ [])). eexists. eapply (P_terminal _ _ _ _ w args f d c _ _ E L T O); [|exact S]. eapply trun_step; [apply trun_refl|]. apply (T_fail (t_start (chars f) d)). now destruct f, d.
      * eexists (Piped ([] ++ [_])). eexists. eapply P_pipe; [exact E|exact L|exact T| |].
        -- eapply hrun_step; [apply hrun_refl|]. apply (H_not_created (h_start (chars f)) (Other []) eq_refl).
        -- reflexivity.
  - exists Nothing. eexists. eapply P_error. exact E.
  - exfalso. revert E. apply C129_never_panics.
Qed.
(** Without validating, a process ends with status 0, but for a command line that is a mistake and a
    terminal that fails in init. *)
Theorem C161_others : forall w args v e,
  (forall x, execute args = Err x -> process w args v e <-> v = Nothing /\ e = Exit 1 (Some (FCommand x))) /\
  (starts open_file decode env goos args PrintVersion -> process w args v e <-> v = Nothing /\ e = Exit 0 None) /\
  (forall lang, starts open_file decode env goos args (StartInit lang) -> process w args v e <-> v = Nothing /\ (e = Exit 0 None \/ e = Exit 1 (Some FProgram))).
Proof.
  intros w args v e.
  assert (V : forall r, execute args = r -> (forall f d c, r <> Ok (StartValidate f d c)) -> process w args v e -> v = Nothing /\ match r with
     | Err x => e = Exit 1 (Some (FCommand x)) | Ok (StartInit _) => e = Exit 0 None \/ e = Exit 1 (Some FProgram) | Ok _ => e = Exit 0 None | Panic => True end).
  { intros r X N P. destruct P as [er E|E|a E G|l b E|f' d' c' E L|f' d' c' tr s o E L W H D|f' d' c' E L W O|f' d' c' tr s E L W O H Q]; rewrite X in E; clear X; subst r; try (now elim (N _ _ _ eq_refl)); (split; [reflexivity|]).
    - reflexivity.
    - exact I.
    - destruct a; try reflexivity; destruct G.
    - destruct b; auto. }
  split; [|split].
  - intros x X. split; [intros P; exact (V _ X ltac:(discriminate) P)|]. intros [-> ->]. exact (P_error _ _ _ _ w args x X).
  - intros S. apply C129_runs in S. split; [intros P; exact (V _ S ltac:(discriminate) P)|]. intros [-> ->]. exact (P_other _ _ _ _ w args _ S I).
  - intros lang S. apply C129_runs in S. split; [intros P; exact (V _ S ltac:(discriminate) P)|]. intros [-> [->| ->]]; [exact (P_init _ _ _ _ w args _ false S)|exact (P_init _ _ _ _ w args _ true S)].
Qed.
(** The reason that is given is the reason. *)
Theorem C161_reasons : forall w args v r, process w args v (Exit 1 (Some r)) ->
  match r with
  | FCommand x => execute args = Err x
  | FLog => w_log w = false
  | FOutput => w_terminal w = true /\ w_output w = false
  | FEngine _ => v <> Nothing
  | FProgram => w_terminal w = true \/ exists lang, execute args = Ok (StartInit lang)
  end.
Proof.
  intros w args v r P. remember (Exit 1 (Some r)) as e eqn:C.
  destruct P as [er E|E|a E G|l b E|f' d' c' E L|f' d' c' tr s o E L W H D|f' d' c' E L W O|f' d' c' tr s E L W O H V]; try discriminate; unfold returned in C.
  - now injection C as <-.
  - destruct b; [injection C as <-; eauto|discriminate].
  - now injection C as <-.
  - destruct o; [injection C as <-; discriminate|discriminate].
  - now injection C as <-.
  - unfold t_end, returned in C. destruct (t_failed s); [injection C as <-; auto|]. destruct (t_value s); [|discriminate]. destruct (exit_error (t_o s)); [injection C as <-; discriminate|discriminate].
Qed.
End Process.

(** A command line in a directory with an empty configuration file asks to validate a file. *)
Definition example_open (f : string) : option string := if String.eqb f "celerity.config.toml" then Some "" else None.
Example C161_nonvacuous : let env := fun _ : string => None in let decode := fun (_ : file_format) (_ : string) => Some [] in
  asks_to_validate example_open decode env "linux" ["validate"; "-b"; "a.yaml"] "a.yaml" false.
Proof.
  cbn zeta. exists (mk_client "http://localhost:8325" "tcp" "test-api-key").
  apply C129_exact; [exact I| |vm_compute; reflexivity].
  intros (s & x & [<-|[<-|[<-|[]]]] & [H|H]); discriminate.
Qed.
Example C161_others_nonvacuous : let env := fun _ : string => None in let decode := fun (_ : file_format) (_ : string) => Some [] in
  starts example_open decode env "linux" ["version"] PrintVersion /\ (exists x, execute example_open decode env "linux" ["validate"; "--nothing"] = Err x).
Proof.
  cbn zeta. split; [|eexists; vm_compute; reflexivity]. apply C129_exact; [exact I| |vm_compute; reflexivity].
  intros (s & x & [<-|[]] & [H|H]); discriminate.
Qed.
Example C161_engine_nonvacuous : let w := mk_world true true false in let env := fun _ : string => None in let decode := fun (_ : file_format) (_ : string) => Some [] in
  process example_open decode env "linux" w ["validate"; "-b"; "a.yaml"] (Piped [ACreate (mk_document [] [] []) None; AOpen None; AEvent (mk_event LError (chars "bad")); AClosed]) (Exit 0 None).
Proof.
  cbn zeta. change (Exit 0 None) with (returned (match @None error with Some e => Some (FEngine e) | None => None end)).
  eapply P_pipe; [vm_compute; reflexivity|reflexivity|reflexivity| |].
  - change [ACreate (mk_document [] [] []) None; AOpen None; AEvent (mk_event LError (chars "bad")); AClosed] with
      (((((([] ++ [ACreate empty_document None]) ++ [AOpen None]) ++ []) ++ [AEvent (mk_event LError (chars "bad"))]) ++ []) ++ [AClosed]).
    eapply hrun_step; [eapply hrun_step; [eapply hrun_step; [eapply hrun_step; [eapply hrun_step; [eapply hrun_step; [apply hrun_refl|]|]|]|]|]|].
    + now apply H_created.
    + now apply H_opened.
    + apply (H_client _ (mk_chans (Offer (mk_event LError (chars "bad"))) Idle None)). repeat split; discriminate.
    + now apply H_event.
    + apply (H_client _ (mk_chans Closed Idle None)). repeat split; discriminate.
    + now apply H_closed.
  - reflexivity.
Qed.

Print Assumptions C161_piped.
Print Assumptions C161_terminal.
Print Assumptions C161_directory_refuted.
Print Assumptions C161_crash_refuted.
Print Assumptions C161_terminated_refuted.
Print Assumptions C161_crashes.
Print Assumptions C161_ends.
Print Assumptions C161_others.
Print Assumptions C161_reasons.
