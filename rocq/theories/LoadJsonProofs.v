(** Lemmas for C127 to C129 *)
From Verif Require Import Base Chars SubstModel ResolveModel ResolveSpec BlueprintModel WfYamlModel WfYamlSpec WfYamlProofs SpecYamlModel SpecYamlSpec
  SpecJsonModel SpecJsonSpec SpecJsonProofs SpecJsonProps WfResolveModel WfResolveSpec SpecResolveModel SpecResolveSpec SpecResolveProofs SpecResolveProps
  LoadModel LoadSpec LoadProofs LoadJsonModel LoadJsonSpec.
Local Open Scope list_scope.
Notation mapping := (list (option text * yaml)).

(** * Members *)
Lemma fold_snoc {A E X} (f : X -> A -> outcome E X) l a : forall x, fold_outcome f x (l ++ [a]) = (let! y := fold_outcome f x l in f y a).
Proof. induction l as [|b l IH]; intros x; cbn; [destruct (f x a); reflexivity|]. destruct (f x b); [apply IH|reflexivity..]. Qed.
Lemma keys_snoc (m : mapping) o v : keys_of (m ++ [(o, v)]) = keys_of m ++ match o with Some key => [key] | None => [] end.
Proof. rewrite keys_app. f_equal. unfold keys_of. cbn. now rewrite app_nil_r. Qed.
Lemma snoc_cases {A} (m : list A) e pre x post : m ++ [e] = pre ++ x :: post -> (m = pre /\ e = x /\ post = []) \/ (exists post', post = post' ++ [e] /\ m = pre ++ x :: post').
Proof.
  intros H. destruct post as [|p post _] using rev_ind; [left|right].
  - apply app_inj_tail in H as [-> ->]. auto.
  - exists post. change (pre ++ x :: post ++ [p]) with (pre ++ (x :: post) ++ [p]) in H. rewrite app_assoc in H. apply app_inj_tail in H as [-> ->]. auto.
Qed.
Lemma once_nil key : occurs_once key [].
Proof. intros [|? pre] v post E; discriminate. Qed.
Lemma once_snoc key m o v : occurs_once key (m ++ [(o, v)]) <-> occurs_once key m /\ (o = Some key -> ~ In key (keys_of m)).
Proof.
  rewrite <- !count_once, count_app, <- count_none. unfold count_key at 2. cbn [filter fst].
  destruct o as [key'|]; [destruct (text_eqb_spec key' key) as [->|N]|]; cbn [length].
  - split; [intros H; split; [lia|intros _; lia]|intros [_ H]; specialize (H eq_refl); lia].
  - split; [intros H; split; [lia|congruence]|intros [H _]; lia].
  - split; [intros H; split; [lia|discriminate]|intros [H _]; lia].
Qed.
Lemma in_snoc {A} (m : list A) e x : In x (m ++ [e]) <-> In x m \/ x = e.
Proof. rewrite in_app_iff. cbn. split; intros [H|H]; try tauto; [destruct H as [->|[]]; auto|subst; auto]. Qed.
Lemma given_none {A} m key (R : yaml -> A -> Prop) : given m key R None <-> ~ In key (keys_of m).
Proof.
  unfold given. split; [intros [_ [(? & ? & _ & _ & E)|[H _]]]; [discriminate|exact H]|]. intros H. split; [|auto].
  apply count_once. apply count_none in H. lia.
Qed.
Lemma given_other {A} m key (R : yaml -> A -> Prop) o key' v : key' <> Some key -> (given (m ++ [(key', v)]) key R o <-> given m key R o).
Proof.
  intros N. unfold given. rewrite once_snoc, keys_snoc, in_app_iff.
  assert (X : In key match key' with Some key => [key] | None => [] end <-> False) by (destruct key' as [t|]; cbn; [split; [intros [->|[]]; now elim N|tauto]|tauto]).
  split.
  - intros [[O _] H]. split; [exact O|]. destruct H as [(w & a & Hi & Ha)|[H Eo]]; [left; exists w, a; apply in_snoc in Hi; destruct Hi as [Hi|E0]; [auto|elim N; congruence]|right; tauto].
  - intros [O H]. split; [split; [exact O|intros E; now elim N]|]. destruct H as [(w & a & Hi & Ha)|[H Eo]]; [left; exists w, a; rewrite in_snoc; auto|right; tauto].
Qed.
Lemma given_same {A} m key (R : yaml -> A -> Prop) o v : given (m ++ [(Some key, v)]) key R o <-> ~ In key (keys_of m) /\ exists a, R v a /\ o = Some a.
Proof.
  unfold given. rewrite once_snoc, keys_snoc, in_app_iff. split.
  - intros [[_ O] H]. specialize (O eq_refl). split; [exact O|]. destruct H as [(w & a & Hi & Ha)|[H Eo]]; [|elim H; right; now left].
    exists a. apply in_snoc in Hi. destruct Hi as [Hi|[= ->]]; [|exact Ha]. elim O. apply keys_in. eauto.
  - intros [O (a & Ha & Eo)]. split; [split; [|auto]; apply count_once; apply count_none in O; lia|]. left. exists v, a. rewrite in_snoc. auto.
Qed.
Lemma last_other {A} m key (R : yaml -> A -> Prop) o key' v : key' <> Some key -> (last_given (m ++ [(key', v)]) key R o <-> last_given m key R o).
Proof.
  intros N. unfold last_given. rewrite keys_snoc, in_app_iff.
  assert (X : In key match key' with Some key => [key] | None => [] end <-> False) by (destruct key' as [t|]; cbn; [split; [intros [->|[]]; now elim N|tauto]|tauto]).
  split; intros [G H]; (split; [intros w Hw|]).
  - apply G. apply in_snoc. now left.
  - destruct H as [(pre & w & post & a & E & Hp & Ha)|[H Eo]]; [left|right; tauto]. apply snoc_cases in E. destruct E as [(_ & E0 & _)|(post' & -> & ->)]; [elim N; congruence|].
    exists pre, w, post', a. rewrite keys_snoc, in_app_iff in Hp. split; [reflexivity|]. split; [tauto|exact Ha].
  - apply in_snoc in Hw. destruct Hw as [Hw|E0]; [now apply G|elim N; congruence].
  - destruct H as [(pre & w & post & a & -> & Hp & Ha)|[H Eo]]; [left|right; tauto]. exists pre, w, (post ++ [(key', v)]), a. rewrite keys_snoc, in_app_iff, <- app_assoc. cbn. split; [reflexivity|]. split; [tauto|exact Ha].
Qed.
Lemma last_some {A} m key (R : yaml -> A -> Prop) : (forall v, In (Some key, v) m -> exists a, R v a) <-> exists o, last_given m key R o.
Proof.
  split; [|intros (o & H & _); exact H]. intros G. unfold last_given.
  assert (D : ~ In key (keys_of m) \/ exists pre v post, m = pre ++ (Some key, v) :: post /\ ~ In key (keys_of post)).
  { clear G. induction m as [|[o v] m IH] using rev_ind; [left; intros []|]. rewrite keys_snoc.
    destruct o as [key'|]; [destruct (text_eqb_spec key' key) as [->|N]|].
    - right. exists m, v, []. split; [reflexivity|intros []].
    - destruct IH as [IH|(pre & w & post & -> & Hp)]; [left; rewrite in_app_iff; cbn; intros [H|[H|[]]]; [exact (IH H)|exact (N H)]|right].
      exists pre, w, (post ++ [(Some key', v)]). split; [now rewrite <- app_assoc|]. rewrite keys_snoc, in_app_iff. cbn. intros [H|[H|[]]]; [exact (Hp H)|exact (N H)].
    - destruct IH as [IH|(pre & w & post & -> & Hp)]; [left; now rewrite app_nil_r|right].
      exists pre, w, (post ++ [(None, v)]). split; [now rewrite <- app_assoc|]. now rewrite keys_snoc, app_nil_r. }
  destruct D as [D|(pre & v & post & E & Hp)]; [exists None; auto|]. destruct (G v) as (a & Ha); [subst; apply in_or_app; right; now left|]. exists (Some a). split; [exact G|]. left. exists pre, v, post, a. auto.
Qed.
Lemma last_same {A} m key (R : yaml -> A -> Prop) o v : last_given (m ++ [(Some key, v)]) key R o <-> (exists o', last_given m key R o') /\ exists a, R v a /\ o = Some a.
Proof.
  rewrite <- last_some. unfold last_given. split.
  - intros [G H]. split; [intros w Hw; apply G, in_snoc; now left|]. destruct H as [(pre & w & post & a & E & Hp & Ha)|[H _]].
    + exists a. apply snoc_cases in E. destruct E as [(_ & [= ->] & _)|(post' & -> & _)]; [exact Ha|]. elim Hp. rewrite keys_snoc, in_app_iff. right. now left.
    + elim H. rewrite keys_snoc, in_app_iff. right. now left.
  - intros [G (a & Ha & Eo)]. split; [intros w Hw; apply in_snoc in Hw; destruct Hw as [Hw|[= ->]]; eauto|]. left. exists m, v, [], a. auto.
Qed.
Lemma only_snoc names m o v : only_members names (m ++ [(o, v)]) <-> only_members names m /\ exists key, o = Some key /\ In key names.
Proof.
  unfold only_members. split.
  - intros H. split; [intros e He; apply H, in_snoc; now left|]. apply (H (o, v)). apply in_snoc. now right.
  - intros [H X] e He. apply in_snoc in He. destruct He as [He| ->]; [now apply H|exact X].
Qed.
Lemma first_other m key key' o v : o <> Some key' -> (comes_first (m ++ [(o, v)]) key key' <-> comes_first m key key').
Proof.
  intros N. unfold comes_first. split; intros H pre w post E.
  - apply (H pre w (post ++ [(o, v)])). rewrite E, <- app_assoc. reflexivity.
  - apply snoc_cases in E. destruct E as [(_ & E0 & _)|(post' & _ & E)]; [elim N; congruence|]. exact (H _ _ _ E).
Qed.
Lemma first_same m key key' v : comes_first (m ++ [(Some key', v)]) key key' <-> comes_first m key key' /\ In key (keys_of m).
Proof.
  unfold comes_first. split.
  - intros H. split; [|exact (H m v [] eq_refl)]. intros pre w post E. apply (H pre w (post ++ [(Some key', v)])). rewrite E, <- app_assoc. reflexivity.
  - intros [H X] pre w post E. apply snoc_cases in E. destruct E as [(<- & _)|(post' & _ & E)]; [exact X|exact (H _ _ _ E)].
Qed.
Lemma first_none m key key' : comes_first m key key' -> ~ In key (keys_of m) -> ~ In key' (keys_of m).
Proof.
  intros H N Hi. apply keys_in in Hi. destruct Hi as (v & Hv). apply in_split in Hv. destruct Hv as (pre & post & E). apply N. rewrite E, keys_app, in_app_iff. left. exact (H _ _ _ E).
Qed.
Lemma first_free m key key' : ~ In key' (keys_of m) -> comes_first m key key'.
Proof. intros N pre v post ->. elim N. rewrite keys_app, in_app_iff. right. now left. Qed.

(** * One resource *)
Lemma type_names_ok t ty : json_type t = Some ty <-> In (t, ty) json_type_names.
Proof.
  unfold json_type, json_type_names, type_names. cbn [In app].
  repeat match goal with |- context [text_eqb t ?n] => destruct (text_eqb_spec t n) as [->|?] end;
  (split; [intros H; try discriminate H; injection H as <-; tauto|]);
  intros H; repeat (destruct H as [H|H]; [try (injection H; intros; congruence); try (injection H; intros; subst; reflexivity)|]); destruct H.
Qed.
Lemma type_names_none t : json_type t = None <-> ~ In t (map fst json_type_names).
Proof.
  split.
  - intros H Hi. apply in_map_iff in Hi. destruct Hi as ([t' ty] & E & Hi). cbn in E. subst t'. apply type_names_ok in Hi. congruence.
  - intros H. destruct (json_type t) as [ty|] eqn:E; [|reflexivity]. elim H. apply in_map_iff. exists (t, ty). split; [reflexivity|now apply type_names_ok].
Qed.
Lemma in_members key : In key resource_members <-> exists f, field_of (Some key) = Some f.
Proof.
  unfold field_of, resource_members. cbn [map In].
  repeat match goal with |- context [text_eqb key ?n] => destruct (text_eqb_spec key n) as [->|?] end;
  (split; [intros H|intros (f & H); try discriminate H]); try (eexists; reflexivity); try tauto; exfalso; intuition congruence.
Qed.
Section Generic.
Variables M L S : Type.
Variable read_meta : yaml -> option M.
Variable read_selector : yaml -> option L.
Variable read_spec : rtype -> yaml -> option S.
Variable Rm : yaml -> M -> Prop.
Variable Rl : yaml -> L -> Prop.
Variable Rs : rtype -> yaml -> S -> Prop.
Hypothesis Hm : forall v x, read_meta v = Some x <-> Rm v x.
Hypothesis Hl : forall v x, read_selector v = Some x <-> Rl v x.
Hypothesis Hs : forall ty v x, read_spec ty v = Some x <-> Rs ty v x.
Notation jstate := (jstate M L S).
Notation step := (json_field M L S read_meta read_selector read_spec).
Notation ftype := (chars "type").
Notation fmeta := (chars "metadata").
Notation fspec := (chars "spec").
Notation fdesc := (chars "description").
Notation fsel := (chars "linkSelector").

(** What the visitor knows after reading the members [m], none of which was an unknown type *)
Definition plainly (m : mapping) (s : jstate) : Prop :=
  j_unsup _ _ _ s = false /\ only_members resource_members m /\
  given m ftype json_type_is (j_type _ _ _ s) /\ last_given m fmeta Rm (j_meta _ _ _ s) /\
  given m fdesc is_string (j_desc _ _ _ s) /\ given m fsel Rl (j_sel _ _ _ s) /\
  given m fspec (fun v x => exists ty, j_type _ _ _ s = Some ty /\ Rs ty v x) (BlueprintModel.j_spec _ _ _ s) /\ comes_first m ftype fspec.
Definition unsupported_state (s : jstate) : jstate :=
  {| j_type := None; j_meta := j_meta _ _ _ s; BlueprintModel.j_spec := BlueprintModel.j_spec _ _ _ s; j_desc := j_desc _ _ _ s; j_sel := j_sel _ _ _ s; j_unsup := true |}.
Definition ignoring (m : mapping) (s : jstate) : Prop :=
  exists pre t post s0, m = pre ++ (Some ftype, YStr t) :: post /\ json_type t = None /\ plainly pre s0 /\ j_type _ _ _ s0 = None /\
    only_members resource_members post /\ s = unsupported_state s0.
Ltac ne := discriminate.
Lemma fold_state m : forall s, fold_outcome step (jstate0 M L S) m = Ok s <-> plainly m s \/ ignoring m s.
Proof using Hm Hl Hs.
  induction m as [|e m IH] using rev_ind; intros s.
  - cbn. split.
    + intros [= <-]. left. unfold plainly, given, last_given. cbn. split; [reflexivity|]. split; [intros ? []|].
      assert (G : forall A key (R : yaml -> A -> Prop), given [] key R None) by (intros; apply given_none; intros []).
      repeat (split; [first [apply G|split; [intros ? []|auto]]|]). intros [|? pre] ? ? ?; discriminate.
    + intros [(H1 & _ & H2 & H3 & H4 & H5 & H6 & _)|(pre & t & post & s0 & E & _)]; [|destruct pre; discriminate].
      assert (G : forall A key (R : yaml -> A -> Prop) o, given [] key R o -> o = None) by (intros A key R o [_ [(? & ? & [] & _)|[_ H]]]; exact H).
      apply G in H2, H4, H5, H6. destruct H3 as [_ [(pre & ? & ? & ? & E & _)|[_ H3]]]; [destruct pre; discriminate|]. destruct s. cbn in *. subst. reflexivity.
  - rewrite fold_snoc, obind_ok. transitivity (exists s0, (plainly m s0 \/ ignoring m s0) /\ step s0 e = Ok s).
    { split; intros (s0 & H & H'); exists s0; (split; [now apply IH|exact H']). }
    clear IH. destruct e as [o v]. split.
    + intros (s0 & [P|I] & E).
      * (* nothing unknown yet *)
        destruct P as (P0 & P1 & P2 & P3 & P4 & P5 & P6 & P7). unfold json_field in E. cbn [fst snd] in E.
        destruct (field_of o) as [f|] eqn:Ef; [|discriminate]. rewrite P0 in E.
        assert (On : only_members resource_members (m ++ [(o, v)])).
        { apply only_snoc. split; [exact P1|]. destruct o as [key|]; [|discriminate]. exists key. split; [reflexivity|]. apply in_members. eauto. }
        assert (Ek : match f with FType => o = Some ftype | FMeta => o = Some fmeta | FSpec => o = Some fspec | FDesc => o = Some fdesc | FSel => o = Some fsel end).
        { destruct o as [key|]; [|discriminate]. clear -Ef. unfold field_of in Ef. repeat (match type of Ef with context [text_eqb key ?n] => destruct (text_eqb_spec key n) as [->|?] end; [injection Ef as <-; reflexivity|]). discriminate. }
        destruct f; subst o.
        -- destruct (j_type _ _ _ s0) as [ty|] eqn:Et; [discriminate|]. destruct v as [t| | | | | |]; try discriminate. destruct (json_type t) as [ty|] eqn:Ety; injection E as <-.
           ++ left. unfold plainly. cbn. split; [reflexivity|]. split; [exact On|]. apply given_none in P2.
              split; [apply given_same; split; [exact P2|]; exists ty; split; [exists t; split; [reflexivity|now apply type_names_ok]|reflexivity]|].
              split; [now apply last_other; [ne|]|]. split; [now apply given_other; [ne|]|]. split; [now apply given_other; [ne|]|].
              pose proof (first_none _ _ _ P7 P2) as N. split; [|apply first_other; [ne|exact P7]]. apply given_other; [ne|].
              destruct P6 as [O [(w & a & Hi & _)|H]]; [elim N; apply keys_in; eauto|]. split; [exact O|now right].
           ++ right. exists m, t, [], s0. split; [reflexivity|]. split; [exact Ety|]. split; [unfold plainly; rewrite Et; auto 10|]. split; [exact Et|]. split; [intros ? []|reflexivity].
        -- destruct (read_meta v) as [x|] eqn:Ex; [|discriminate]. injection E as <-. left. unfold plainly. cbn. apply Hm in Ex. split; [reflexivity|]. split; [exact On|].
           split; [now apply given_other; [ne|]|]. split; [apply last_same; eauto|]. split; [now apply given_other; [ne|]|]. split; [now apply given_other; [ne|]|].
           split; [now apply given_other; [ne|]|]. now apply first_other; [ne|].
        -- destruct (BlueprintModel.j_spec _ _ _ s0) as [x|] eqn:Es; [discriminate|]. destruct (j_type _ _ _ s0) as [ty|] eqn:Et; [|discriminate]. destruct (read_spec ty v) as [x|] eqn:Ex; [|discriminate]. injection E as <-. apply Hs in Ex.
           left. unfold plainly. cbn. split; [reflexivity|]. split; [exact On|]. split; [now apply given_other; [ne|]|]. split; [now apply last_other; [ne|]|]. split; [now apply given_other; [ne|]|]. split; [now apply given_other; [ne|]|].
           apply given_none in P6. split; [apply given_same; split; [exact P6|]; exists x; split; [exists ty; auto|reflexivity]|]. apply first_same. split; [exact P7|].
           destruct P2 as [_ [(w & a & Hi & _)|[_ H]]]; [apply keys_in; eauto|discriminate].
        -- destruct (j_desc _ _ _ s0) as [x|] eqn:Es; [discriminate|]. destruct v as [t| | | | | |]; try discriminate. injection E as <-. left. unfold plainly. cbn. apply given_none in P4. split; [reflexivity|]. split; [exact On|].
           split; [now apply given_other; [ne|]|]. split; [now apply last_other; [ne|]|]. split; [apply given_same; split; [exact P4|]; exists t; split; reflexivity|]. split; [now apply given_other; [ne|]|].
           split; [now apply given_other; [ne|]|]. now apply first_other; [ne|].
        -- destruct (j_sel _ _ _ s0) as [x|] eqn:Es; [discriminate|]. destruct (read_selector v) as [x|] eqn:Ex; [|discriminate]. injection E as <-. left. unfold plainly. cbn. apply given_none in P5. apply Hl in Ex. split; [reflexivity|]. split; [exact On|].
           split; [now apply given_other; [ne|]|]. split; [now apply last_other; [ne|]|]. split; [now apply given_other; [ne|]|]. split; [apply given_same; split; [exact P5|]; eauto|].
           split; [now apply given_other; [ne|]|]. now apply first_other; [ne|].
      * destruct I as (pre & t & post & s1 & -> & Et & P & En & Hp & ->). unfold json_field in E. cbn [fst snd] in E. destruct (field_of o) as [f|] eqn:Ef; [|discriminate]. cbn in E. injection E as <-.
        right. exists pre, t, (post ++ [(o, v)]), s1. split; [now rewrite <- app_assoc|]. split; [exact Et|]. split; [exact P|]. split; [exact En|]. split; [|reflexivity].
        apply only_snoc. split; [exact Hp|]. destruct o as [key|]; [|discriminate]. exists key. split; [reflexivity|]. apply in_members. eauto.
    + intros [P|I].
      * destruct P as (P0 & P1 & P2 & P3 & P4 & P5 & P6 & P7). apply only_snoc in P1. destruct P1 as (P1 & key & -> & Hk). unfold resource_members in Hk. cbn [map In] in Hk.
        destruct s as [sty sme ssp sde sse sun]; cbn in P0, P2, P3, P4, P5, P6. subst sun.
        destruct Hk as [<-|[<-|[<-|[<-|[<-|[]]]]]].
        -- apply given_same in P2. destruct P2 as (N & ty & (t & -> & Ht) & ->). apply last_other in P3; [|ne]. apply given_other in P4; [|ne]. apply given_other in P5; [|ne]. apply given_other in P6; [|ne]. apply first_other in P7; [|ne].
           pose proof (first_none _ _ _ P7 N) as N'. assert (ssp = None) as -> by (destruct P6 as [_ [(w & a & Hi & _)|[_ H]]]; [elim N'; apply keys_in; eauto|exact H]).
           exists {| j_type := None; j_meta := sme; BlueprintModel.j_spec := None; j_desc := sde; j_sel := sse; j_unsup := false |}. split.
           ++ left. unfold plainly. cbn. split; [reflexivity|]. split; [exact P1|]. split; [now apply given_none|]. split; [exact P3|]. split; [exact P4|]. split; [exact P5|]. split; [now apply given_none|exact P7].
           ++ unfold json_field. cbn [fst snd]. apply type_names_ok in Ht. cbn. now rewrite Ht.
        -- apply last_same in P3. destruct P3 as ((o' & P3) & x & Hx & ->). apply given_other in P2; [|ne]. apply given_other in P4; [|ne]. apply given_other in P5; [|ne]. apply given_other in P6; [|ne]. apply first_other in P7; [|ne].
           exists {| j_type := sty; j_meta := o'; BlueprintModel.j_spec := ssp; j_desc := sde; j_sel := sse; j_unsup := false |}. split.
           ++ left. unfold plainly. cbn. auto 10.
           ++ unfold json_field. cbn [fst snd]. apply Hm in Hx. cbn. now rewrite Hx.
        -- apply given_same in P6. destruct P6 as (N & x & (ty & -> & Hx) & ->). apply given_other in P2; [|ne]. apply last_other in P3; [|ne]. apply given_other in P4; [|ne]. apply given_other in P5; [|ne]. apply first_same in P7.
           exists {| j_type := Some ty; j_meta := sme; BlueprintModel.j_spec := None; j_desc := sde; j_sel := sse; j_unsup := false |}. split.
           ++ left. unfold plainly. cbn. split; [reflexivity|]. split; [exact P1|]. split; [exact P2|]. split; [exact P3|]. split; [exact P4|]. split; [exact P5|]. split; [now apply given_none|tauto].
           ++ unfold json_field. cbn [fst snd]. apply Hs in Hx. cbn. now rewrite Hx.
        -- apply given_same in P4. destruct P4 as (N & x & Hx & ->). apply given_other in P2; [|ne]. apply last_other in P3; [|ne]. apply given_other in P5; [|ne]. apply given_other in P6; [|ne]. apply first_other in P7; [|ne].
           exists {| j_type := sty; j_meta := sme; BlueprintModel.j_spec := ssp; j_desc := None; j_sel := sse; j_unsup := false |}. split.
           ++ left. unfold plainly. cbn. split; [reflexivity|]. split; [exact P1|]. split; [exact P2|]. split; [exact P3|]. split; [now apply given_none|]. auto.
           ++ unfold is_string in Hx; subst v; reflexivity.
        -- apply given_same in P5. destruct P5 as (N & x & Hx & ->). apply given_other in P2; [|ne]. apply last_other in P3; [|ne]. apply given_other in P4; [|ne]. apply given_other in P6; [|ne]. apply first_other in P7; [|ne].
           exists {| j_type := sty; j_meta := sme; BlueprintModel.j_spec := ssp; j_desc := sde; j_sel := None; j_unsup := false |}. split.
           ++ left. unfold plainly. cbn. split; [reflexivity|]. split; [exact P1|]. split; [exact P2|]. split; [exact P3|]. split; [exact P4|]. split; [now apply given_none|]. auto.
           ++ unfold json_field. cbn [fst snd]. apply Hl in Hx. cbn. now rewrite Hx.
      * destruct I as (pre & t & post & s1 & E & Et & P & En & Hp & ->). apply snoc_cases in E. destruct E as [(-> & Ee & ->)|(post' & -> & ->)].
        -- injection Ee as -> ->. exists s1. split; [left; exact P|]. unfold json_field. cbn [fst snd]. cbn. destruct P as (-> & _). now rewrite En, Et.
        -- exists (unsupported_state s1). apply only_snoc in Hp. destruct Hp as (Hp & key & -> & Hk). split; [right; exists pre, t, post', s1; auto 10|].
           unfold json_field. cbn [fst snd]. apply in_members in Hk. destruct Hk as (f & ->). reflexivity.
Qed.
Notation resource := (resource M L S).
Notation json_resource := (json_resource M L S read_meta read_selector read_spec).
Definition declares (m : mapping) (r : resource) : Prop :=
  only_members resource_members m /\ given m ftype json_type_is (Some (r_type _ _ _ r)) /\ last_given m fmeta Rm (r_meta _ _ _ r) /\
  given m fdesc is_string (r_desc _ _ _ r) /\ given m fsel Rl (r_sel _ _ _ r) /\ given m fspec (Rs (r_type _ _ _ r)) (r_spec _ _ _ r) /\ comes_first m ftype fspec.
Definition ignored (m : mapping) : Prop :=
  only_members resource_members m /\
  exists pre t post, m = pre ++ (Some ftype, YStr t) :: post /\ ~ In t (map fst json_type_names) /\
    ~ In ftype (keys_of pre) /\ ~ In fspec (keys_of pre) /\ (exists o, last_given pre fmeta Rm o) /\ (exists o, given pre fdesc is_string o) /\ (exists o, given pre fsel Rl o).
Lemma given_iff {A} m key (R R' : yaml -> A -> Prop) o : (forall v a, R v a <-> R' v a) -> (given m key R o <-> given m key R' o).
Proof using. intros H. unfold given. setoid_rewrite H. reflexivity. Qed.
Lemma jresource_ok m r : json_resource m = Ok r <-> declares m r.
Proof using Hm Hl Hs.
  unfold json_resource. rewrite obind_ok. split.
  - intros (s & E & H). apply fold_state in E. destruct E as [(P0 & P1 & P2 & P3 & P4 & P5 & P6 & P7)|(pre & t & post & s0 & _ & _ & _ & _ & _ & ->)]; [|discriminate].
    rewrite P0 in H. destruct (j_type _ _ _ s) as [ty|] eqn:Et; [|discriminate]. injection H as <-. unfold declares. cbn. split; [exact P1|]. split; [exact P2|]. split; [exact P3|]. split; [exact P4|]. split; [exact P5|]. split; [|exact P7].
    eapply given_iff; [|exact P6]. intros v a. split; [eauto|]. now intros (ty' & [= <-] & H).
  - intros (P1 & P2 & P3 & P4 & P5 & P6 & P7).
    exists {| j_type := Some (r_type _ _ _ r); j_meta := r_meta _ _ _ r; BlueprintModel.j_spec := r_spec _ _ _ r; j_desc := r_desc _ _ _ r; j_sel := r_sel _ _ _ r; j_unsup := false |}. cbn. split; [|now destruct r].
    apply fold_state. left. unfold plainly. cbn. split; [reflexivity|]. split; [exact P1|]. split; [exact P2|]. split; [exact P3|]. split; [exact P4|]. split; [exact P5|]. split; [|exact P7].
    eapply given_iff; [|exact P6]. intros v a. split; [|eauto]. now intros (ty' & [= <-] & H).
Qed.
Lemma step_errors s e x : step s e = Err x -> x = EFormat.
Proof using.
  unfold json_field. repeat match goal with
  | |- Err _ = Err _ -> _ => now intros [= <-]
  | |- Ok _ = Err _ -> _ => discriminate
  | |- context [read_meta ?v] => destruct (read_meta v); cbn
  | |- context [read_selector ?v] => destruct (read_selector v); cbn
  | |- context [read_spec ?t ?v] => destruct (read_spec t v); cbn
  | |- match ?y with _ => _ end = _ -> _ => destruct y
  | |- (if ?y then _ else _) = _ -> _ => destruct y
  end.
Qed.
Lemma fold_errors m x : forall s, fold_outcome step s m = Err x -> x = EFormat.
Proof using.
  induction m as [|e m IH]; intros s; cbn; [discriminate|]. destruct (step s e) as [s'|y|] eqn:E; cbn; [apply IH| |discriminate]. intros [= <-]. eapply step_errors; eassumption.
Qed.
Lemma jresource_ignored m : json_resource m = Err EUnsupported <-> ignored m.
Proof using Hm Hl Hs.
  unfold json_resource. split.
  - destruct (fold_outcome _ _ m) as [s|x|] eqn:E; cbn [obind]; [| |discriminate]; [|intros [= ->]; apply fold_errors in E; discriminate].
    apply fold_state in E. destruct E as [(P0 & _)|I]; [rewrite P0; destruct (j_type _ _ _ s); discriminate|]. intros _.
    destruct I as (pre & t & post & s0 & -> & Et & P & En & Hp & ->). destruct P as (P0 & P1 & P2 & P3 & P4 & P5 & P6 & P7). unfold ignored. split.
    { intros e He. apply in_app_or in He. destruct He as [He|[<-|He]]; [now apply P1|exists ftype; split; [reflexivity|now left]|now apply Hp]. }
    rewrite En in P2. apply given_none in P2. exists pre, t, post. split; [reflexivity|]. split; [now apply type_names_none|]. split; [exact P2|]. split; [now apply (first_none _ _ _ P7)|]. split; [eauto|split; eauto].
  - intros (On & pre & t & post & -> & Ht & N & N' & (o1 & H1) & (o2 & H2) & (o3 & H3)).
    assert (X : fold_outcome step (jstate0 M L S) (pre ++ (Some ftype, YStr t) :: post) = Ok (unsupported_state {| j_type := None; j_meta := o1; BlueprintModel.j_spec := None; j_desc := o2; j_sel := o3; j_unsup := false |})).
    { apply fold_state. right. exists pre, t, post, {| j_type := None; j_meta := o1; BlueprintModel.j_spec := None; j_desc := o2; j_sel := o3; j_unsup := false |}. split; [reflexivity|]. split; [now apply type_names_none|]. split; [|split; [reflexivity|split; [|reflexivity]]].
      - unfold plainly. cbn. split; [reflexivity|]. split; [intros e He; apply On, in_or_app; now left|]. split; [now apply given_none|]. split; [exact H1|]. split; [exact H2|]. split; [exact H3|].
        split; [now apply given_none|]. now apply first_free.
      - intros e He. apply On, in_or_app. right. now right. }
    rewrite X. reflexivity.
Qed.
(** * The resources *)
Inductive declare : mapping -> list (text * resource) -> Prop :=
| d_none : declare [] []
| d_null name l rs : declare l rs -> declare ((Some name, YNull) :: l) rs
| d_ignored name m l rs : ignored m -> declare l rs -> declare ((Some name, YMap m) :: l) rs
| d_kept name m r l rs : declares m r -> declare l rs -> declare ((Some name, YMap m) :: l) ((name, r) :: rs).
Lemma jresources_ok m : forall acc rs, fold_outcome (json_resources_step M L S read_meta read_selector read_spec) acc m = Ok rs <-> exists ds, declare m ds /\ rs = puts acc ds.
Proof using Hm Hl Hs.
  induction m as [|[o v] m IH]; intros acc rs; cbn [fold_outcome].
  - split; [intros [= <-]; exists []; split; [constructor|reflexivity]|]. intros (ds & H & ->). now inversion H.
  - rewrite obind_ok. split.
    + intros (acc' & E & H). apply IH in H. destruct H as (ds & Hd & ->). destruct o as [name|]; [|discriminate]. destruct v as [t|z|t|b| |l|rm]; try discriminate E.
      * injection E as <-. exists ds. split; [now constructor|reflexivity].
      * cbn in E. destruct (json_resource rm) as [r|x|] eqn:Er; [|destruct x; try discriminate|discriminate]; injection E as <-.
        -- exists ((name, r) :: ds). split; [constructor; [now apply jresource_ok|exact Hd]|reflexivity].
        -- exists ds. split; [constructor; [now apply jresource_ignored|exact Hd]|reflexivity].
    + intros (ds & Hd & ->). inversion Hd as [|name l rs' H|name rm l rs' Hi H|name rm r l rs' Hi H]; subst.
      * exists acc. split; [reflexivity|]. apply IH. eauto.
      * exists acc. cbn. apply jresource_ignored in Hi. rewrite Hi. split; [reflexivity|]. apply IH. eauto.
      * exists (put name r acc). cbn. apply jresource_ok in Hi. rewrite Hi. split; [reflexivity|]. apply IH. eauto.
Qed.
End Generic.

(** * The document *)
Definition null_or {A} (R : yaml -> A -> Prop) (v : yaml) (o : option A) : Prop := (v = YNull /\ o = None) \/ (v <> YNull /\ exists a, R v a /\ o = Some a).
Definition version_is (v : yaml) (t : text) : Prop := v = YStr version_text /\ t = version_text.
Lemma texts_is l : forall r, texts l = Some r <-> l = map YStr r.
Proof.
  induction l as [|v l IH]; intros r; cbn.
  - split; [intros [= <-]; reflexivity|]. destruct r; [reflexivity|discriminate].
  - destruct v as [t| | | | | |]; try (split; [discriminate|destruct r; discriminate]). destruct (texts l) as [ts|] eqn:E.
    + split; [intros [= <-]; cbn; f_equal; now apply IH|]. destruct r as [|t' r]; [discriminate|]. intros [= -> H]. apply IH in H. now injection H as ->.
    + split; [discriminate|]. destruct r as [|t' r]; [discriminate|]. intros [= -> H]. apply IH in H. discriminate.
Qed.
Lemma transform_ok v l : json_transform v = Ok l <-> json_transform_is v l.
Proof.
  unfold json_transform_is. destruct v as [t| | | | |vs|]; cbn; try (split; [discriminate|intros [(? & ? & _)|?]; discriminate]).
  - split; [intros [= <-]; eauto|]. intros [(? & [= <-] & ->)|?]; [reflexivity|discriminate].
  - unfold need. destruct (texts vs) as [ts|] eqn:E.
    + apply texts_is in E. subst vs. split; [intros [= <-]; now right|]. intros [(? & ? & _)|[= H]]; [discriminate|]. f_equal. apply texts_is in H. pose proof (proj2 (texts_is (map YStr ts) ts) eq_refl). congruence.
    + split; [discriminate|]. intros [(? & ? & _)|[= ->]]; [discriminate|]. pose proof (proj2 (texts_is (map YStr l) l) eq_refl). congruence.
Qed.
Lemma optional_ok {A} (read : yaml -> option A) (R : yaml -> A -> Prop) v o : (forall v x, read v = Some x <-> R v x) -> (BlueprintModel.optional read v = Ok o <-> null_or R v o).
Proof.
  intros H. unfold null_or. assert (D : v = YNull \/ v <> YNull) by (destruct v; [right; discriminate..|now left|right; discriminate|right; discriminate]). destruct D as [->|D].
  - cbn. split; [intros [= <-]; auto|]. intros [[_ ->]|[N _]]; [reflexivity|now elim N].
  - assert (E : BlueprintModel.optional read v = omap Some (need (read v))) by (destruct v; [reflexivity..|now elim D|reflexivity|reflexivity]). rewrite E. unfold need. destruct (read v) as [a|] eqn:Ea; cbn.
    + apply H in Ea. split; [intros [= <-]; right; eauto|]. intros [[N _]|(_ & b & Hb & ->)]; [now elim D|]. apply H in Ea, Hb. congruence.
    + split; [discriminate|]. intros [[N _]|(_ & b & Hb & ->)]; [now elim D|]. apply H in Hb. congruence.
Qed.
Section Document.
Variables M L S V B : Type.
Variable read_meta : yaml -> option M.
Variable read_selector : yaml -> option L.
Variable read_spec : rtype -> yaml -> option S.
Variable read_vars : yaml -> option V.
Variable read_bmeta : yaml -> option B.
Variable Rv : yaml -> V -> Prop.
Variable Rb : yaml -> B -> Prop.
Variable Rr : yaml -> list (text * BlueprintModel.resource M L S) -> Prop.
Hypothesis Hv : forall v x, read_vars v = Some x <-> Rv v x.
Hypothesis Hb : forall v x, read_bmeta v = Some x <-> Rb v x.
Hypothesis Hr : forall v x, json_resources M L S read_meta read_selector read_spec v = Ok x <-> Rr v x.
Notation step := (json_entry M L S V B read_meta read_selector read_spec read_vars read_bmeta).
Notation jtop := (jtop M L S V B).
Definition top_of (m : mapping) (s : jtop) : Prop :=
  (forall e, In e m -> fst e <> None) /\
  given m (chars "version") version_is (t_version _ _ _ _ _ s) /\
  given m (chars "transform") json_transform_is (t_transform _ _ _ _ _ s) /\
  given m (chars "variables") (null_or Rv) (t_vars _ _ _ _ _ s) /\
  given m (chars "resources") Rr (t_res _ _ _ _ _ s) /\
  given m (chars "metadata") (null_or Rb) (t_meta _ _ _ _ _ s).
Lemma once_ok {A X} (o : option A) (x : outcome berr X) y : BlueprintModel.once o x = Ok y <-> o = None /\ x = Ok y.
Proof using. destruct o; cbn; split; try discriminate; try tauto. intros [? _]; discriminate. Qed.
Ltac ne := discriminate.
Lemma fold_top m : forall s, fold_outcome step (jtop0 M L S V B) m = Ok s <-> top_of m s.
Proof using Hv Hb Hr.
  induction m as [|[o v] m IH] using rev_ind; intros s.
  - cbn. split.
    + intros [= <-]. assert (G : forall A key (R : yaml -> A -> Prop), given [] key R None) by (intros; apply given_none; intros []). unfold top_of. cbn. split; [intros ? []|]. auto 10.
    + assert (G : forall A key (R : yaml -> A -> Prop) o, given [] key R o -> o = None) by (intros A key R o [_ [(? & ? & [] & _)|[_ H]]]; exact H).
      intros (_ & H1 & H2 & H3 & H4 & H5). apply G in H1, H2, H3, H4, H5. destruct s. cbn in *. subst. reflexivity.
  - rewrite fold_snoc, obind_ok. transitivity (exists s0, top_of m s0 /\ step s0 (o, v) = Ok s).
    { split; intros (s0 & H & H'); exists s0; (split; [now apply IH|exact H']). }
    clear IH. unfold json_entry. cbn [fst snd].
    assert (N : forall e0 : option text * yaml, (forall e, In e (m ++ [e0]) -> fst e <> None) -> forall e, In e m -> fst e <> None) by (intros e H e' He; apply H, in_snoc; now left).
    assert (N' : forall key, (forall e, In e m -> fst e <> None) -> forall e, In e (m ++ [(Some key, v)]) -> fst e <> None) by (intros key H e He; apply in_snoc in He; destruct He as [He| ->]; [now apply H|discriminate]).
    destruct o as [key|]; [|split; [intros (? & _ & ?); discriminate|intros (H & _); elim (H (None, v)); [apply in_snoc; now right|reflexivity]]].
    split.
    + intros (s0 & (Q & Q1 & Q2 & Q3 & Q4 & Q5) & E). unfold top_of. split; [now apply N'|].
      destruct (text_eqb_spec key (chars "version")) as [->|K1]; [|destruct (text_eqb_spec key (chars "transform")) as [->|K2]; [|destruct (text_eqb_spec key (chars "variables")) as [->|K3]; [|destruct (text_eqb_spec key (chars "resources")) as [->|K4]; [|destruct (text_eqb_spec key (chars "metadata")) as [->|K5]]]]].
      * apply once_ok in E. destruct E as [Eo E]. rewrite Eo in Q1. apply given_none in Q1. destruct v as [t| | | | | |]; try discriminate. destruct (text_eqb_spec t version_text) as [->|]; [|discriminate]. injection E as <-. cbn.
        split; [apply given_same; split; [exact Q1|]; eexists; repeat split|]. repeat (split; [apply given_other; [ne|assumption]|]). apply given_other; [ne|assumption].
      * apply once_ok in E. destruct E as [Eo E]. rewrite Eo in Q2. apply given_none in Q2. apply obind_ok in E. destruct E as (l & El & E). injection E as <-. cbn. apply transform_ok in El.
        split; [apply given_other; [ne|assumption]|]. split; [apply given_same; eauto|]. repeat (split; [apply given_other; [ne|assumption]|]). apply given_other; [ne|assumption].
      * apply once_ok in E. destruct E as [Eo E]. rewrite Eo in Q3. apply given_none in Q3. apply obind_ok in E. destruct E as (l & El & E). injection E as <-. cbn. apply (optional_ok read_vars Rv _ _ Hv) in El.
        do 2 (split; [apply given_other; [ne|assumption]|]). split; [apply given_same; eauto|]. repeat (split; [apply given_other; [ne|assumption]|]). apply given_other; [ne|assumption].
      * apply once_ok in E. destruct E as [Eo E]. rewrite Eo in Q4. apply given_none in Q4. apply obind_ok in E. destruct E as (l & El & E). injection E as <-. cbn. apply Hr in El.
        do 3 (split; [apply given_other; [ne|assumption]|]). split; [apply given_same; eauto|]. apply given_other; [ne|assumption].
      * apply once_ok in E. destruct E as [Eo E]. rewrite Eo in Q5. apply given_none in Q5. apply obind_ok in E. destruct E as (l & El & E). injection E as <-. cbn. apply (optional_ok read_bmeta Rb _ _ Hb) in El.
        do 4 (split; [apply given_other; [ne|assumption]|]). apply given_same; eauto.
      * injection E as <-. do 4 (split; [apply given_other; [congruence|assumption]|]). apply given_other; [congruence|assumption].
    + destruct s as [sv st sva sr sm]. unfold top_of. cbn [t_version t_transform t_vars t_res t_meta]. intros (Q & Q1 & Q2 & Q3 & Q4 & Q5). pose proof (N _ Q) as QQ; clear Q; rename QQ into Q.
      destruct (text_eqb_spec key (chars "version")) as [->|K1]; [|destruct (text_eqb_spec key (chars "transform")) as [->|K2]; [|destruct (text_eqb_spec key (chars "variables")) as [->|K3]; [|destruct (text_eqb_spec key (chars "resources")) as [->|K4]; [|destruct (text_eqb_spec key (chars "metadata")) as [->|K5]]]]].
      * apply given_other in Q2, Q3, Q4, Q5; try ne. apply given_same in Q1. destruct Q1 as (F1 & x & (-> & ->) & ->).
        exists {| t_version := None; t_transform := st; t_vars := sva; t_res := sr; t_meta := sm |}. cbn. split; [|reflexivity]. split; [exact Q|]. split; [now apply given_none|]. auto.
      * apply given_other in Q1, Q3, Q4, Q5; try ne. apply given_same in Q2. destruct Q2 as (F1 & x & Hx & ->). apply transform_ok in Hx.
        exists {| t_version := sv; t_transform := None; t_vars := sva; t_res := sr; t_meta := sm |}. cbn [t_version t_transform t_vars t_res t_meta BlueprintModel.once]. rewrite Hx. split; [|reflexivity]. split; [exact Q|]. split; [assumption|]. split; [now apply given_none|]. auto.
      * apply given_other in Q1, Q2, Q4, Q5; try ne. apply given_same in Q3. destruct Q3 as (F1 & x & Hx & ->). apply (optional_ok read_vars Rv _ _ Hv) in Hx.
        exists {| t_version := sv; t_transform := st; t_vars := None; t_res := sr; t_meta := sm |}. cbn [t_version t_transform t_vars t_res t_meta BlueprintModel.once]. rewrite Hx. split; [|reflexivity]. split; [exact Q|]. split; [assumption|]. split; [assumption|]. split; [now apply given_none|]. auto.
      * apply given_other in Q1, Q2, Q3, Q5; try ne. apply given_same in Q4. destruct Q4 as (F1 & x & Hx & ->). apply Hr in Hx.
        exists {| t_version := sv; t_transform := st; t_vars := sva; t_res := None; t_meta := sm |}. cbn [t_version t_transform t_vars t_res t_meta BlueprintModel.once]. rewrite Hx. split; [|reflexivity]. split; [exact Q|]. split; [assumption|]. split; [assumption|]. split; [assumption|]. split; [now apply given_none|]. auto.
      * apply given_other in Q1, Q2, Q3, Q4; try ne. apply given_same in Q5. destruct Q5 as (F1 & x & Hx & ->). apply (optional_ok read_bmeta Rb _ _ Hb) in Hx.
        exists {| t_version := sv; t_transform := st; t_vars := sva; t_res := sr; t_meta := None |}. cbn [t_version t_transform t_vars t_res t_meta BlueprintModel.once]. rewrite Hx. split; [|reflexivity]. split; [exact Q|]. split; [assumption|]. split; [assumption|]. split; [assumption|]. split; [assumption|now apply given_none].
      * eexists. split; [|reflexivity]. cbn. split; [exact Q|]. apply given_other in Q1, Q2, Q3, Q4, Q5; [auto|congruence..].
Qed.
End Document.
Lemma given_opt {A} names m key (R : yaml -> A -> Prop) r : In key names ->
  occurs_once key m /\ field_opt names (YMap m) key R r <-> exists o, given m key (null_or R) o /\ flatten o = r.
Proof.
  intros Hin.
  assert (HasM : forall w, SpecJsonSpec.has names (YMap m) key w <-> In (Some key, w) m).
  { intros w. split; [intros [(? & [= <-] & H)|(? & ? & _)]; [exact H|discriminate]|]. intros H. left. eauto. }
  unfold field_opt, given, null_or. split.
  - intros [O [(w & a & Hw & Hn & Ha & ->)|[Hn ->]]].
    + apply HasM in Hw. exists (Some (Some a)). split; [|reflexivity]. split; [exact O|]. left. exists w, (Some a). split; [exact Hw|]. split; [right; eauto|reflexivity].
    + destruct (in_dec (list_eq_dec N.eq_dec) key (keys_of m)) as [Hi|Hi].
      * apply keys_in in Hi. destruct Hi as (w & Hw). exists (Some None). split; [|reflexivity]. split; [exact O|]. left. exists w, None. split; [exact Hw|]. split; [left; split; [now apply Hn, HasM|reflexivity]|reflexivity].
      * exists None. split; [|reflexivity]. split; [exact O|]. right. auto.
  - intros (o & [O [(w & a & Hw & [[-> ->]|(Hn & b & Hb & ->)] & ->)|[Hn ->]]] & <-); (split; [exact O|]); cbn [flatten].
    + right. split; [|reflexivity]. intros w' Hw'. apply HasM in Hw'. eapply once_same; eassumption.
    + left. exists w, b. rewrite HasM. auto.
    + right. split; [|reflexivity]. intros w' Hw'. elim Hn. apply keys_in. exists w'. now apply HasM.
Qed.

(** * Everything in place *)
Section Params.
Variable F : Type.
Variable parse_f64 : text -> option F.
Variable k : classes.
Hypothesis Hk : sane k.
Variable json_text : text -> option text.
Variable of_int : Z -> F.
Variable env : text -> option text.
Notation declared := (BlueprintModel.resource (metadata F) (list (text * text)) (spec F)).
Notation read_meta := (fun v => ok (j_metadata F parse_f64 k json_text v)).
Notation read_sel := (fun v => ok (j_selector v)).
Notation read_spec := (fun ty v => ok (j_spec F parse_f64 k json_text ty v)).
Notation Rm := (json_metadata F parse_f64 k json_text).
Notation Rs := (json_spec F parse_f64 k json_text).

Lemma ok_iff {E A} (o : outcome E A) a : ok o = Some a <-> o = Ok a.
Proof using. destruct o; cbn; split; congruence. Qed.
Lemma meta_iff v x : ok (j_metadata F parse_f64 k json_text v) = Some x <-> Rm v x.
Proof using Hk. rewrite ok_iff. apply (metadata_ok F parse_f64 k Hk json_text v). Qed.
Lemma sel_iff v x : ok (j_selector v) = Some x <-> json_selector v x.
Proof using. rewrite ok_iff. apply (selector_ok v). Qed.
Lemma spec_iff ty v x : ok (j_spec F parse_f64 k json_text ty v) = Some x <-> Rs ty v x.
Proof using Hk. rewrite ok_iff. apply (spec_ok F parse_f64 k Hk json_text ty v). Qed.
Lemma vars_iff v x : ok (j_vars F parse_f64 of_int v) = Some x <-> is_object (json_var F parse_f64 of_int) v x.
Proof using. rewrite ok_iff. apply (vars_ok F parse_f64 of_int v). Qed.
Lemma bmeta_iff v x : ok (j_blueprint_metadata F parse_f64 k json_text v) = Some x <-> json_blueprint_metadata F parse_f64 k json_text v x.
Proof using Hk. rewrite ok_iff. apply (blueprint_metadata_ok F parse_f64 k Hk json_text v). Qed.
Lemma declare_iff m ds : declare _ _ _ Rm json_selector Rs m ds <-> resources_declare F parse_f64 k json_text m ds.
Proof using. split; intros H; induction H; constructor; assumption. Qed.
Lemma res_iff v rs : json_resources _ _ _ read_meta read_sel read_spec v = Ok rs <-> exists m ds, v = YMap m /\ resources_declare F parse_f64 k json_text m ds /\ rs = last_ones ds.
Proof using Hk.
  unfold json_resources. destruct v as [t|z|t|b| |l|m]; try (split; [discriminate|intros (? & ? & ? & _); discriminate]).
  rewrite (jresources_ok _ _ _ read_meta read_sel read_spec Rm json_selector Rs meta_iff sel_iff spec_iff). split.
  - intros (ds & Hd & ->). apply declare_iff in Hd. rewrite puts_last. cbn. eauto.
  - intros (? & ds & [= <-] & Hd & ->). exists ds. rewrite declare_iff, puts_last. auto.
Qed.
(** * Resolving *)
Definition readable_resource (r : declared) : Prop :=
  (forall x, r_meta _ _ _ r = Some x -> readable_metadata F x) /\ (forall s, r_spec _ _ _ r = Some s -> readable_spec F s).
Lemma declared_readable m r : resource_declares F parse_f64 k json_text m r -> readable_resource r.
Proof using Hk of_int.
  intros (_ & _ & [_ H1] & _ & _ & [_ H2] & _). split.
  - intros x E. destruct H1 as [(pre & v & post & a & _ & _ & Ha & Ea)|[_ Ea]]; [|congruence]. rewrite Ea in E. injection E as ->.
    apply meta_iff, ok_iff in Ha. exact (proj1 (proj2 (C123_readable F parse_f64 k Hk json_text of_int v)) _ Ha).
  - intros s E. destruct H2 as [(v & a & _ & Ha & Ea)|[_ Ea]]; [|congruence]. rewrite Ea in E. injection E as ->.
    apply spec_iff, ok_iff in Ha. exact (proj1 (C123_readable F parse_f64 k Hk json_text of_int v) _ _ Ha).
Qed.
Lemma all_readable m ds : resources_declare F parse_f64 k json_text m ds -> Forall (fun e => readable_resource (snd e)) ds.
Proof using Hk of_int. intros H. induction H; [constructor|assumption..|]. constructor; [eapply declared_readable; eassumption|assumption]. Qed.
Lemma last_sub {A} (l : list (text * A)) e : In e (last_ones l) -> In e l.
Proof using. induction l as [|x l IH]; cbn; [intros []|]. destruct (existsb _ l); [intros H; right; exact (IH H)|]. intros [H|H]; [left; exact H|right; exact (IH H)]. Qed.
Lemma load_metadata_iff name o r : (forall x, o = Some x -> readable_metadata F x) -> (load_metadata F parse_f64 env name o = Some r <-> metadata_stands F parse_f64 env o r).
Proof using.
  intros H. unfold load_metadata, metadata_stands. rewrite ok_iff. destruct o as [x|].
  - rewrite (proj1 (proj2 (C116_exact F parse_f64 env)) x (H x eq_refl) r). split; [eauto|]. intros [(? & [= <-] & X)|[? _]]; [exact X|discriminate].
  - split; [|intros [(? & ? & _)|[_ ->]]; [discriminate|reflexivity]]. intros X. right. split; [reflexivity|]. symmetry. cbn in X. now injection X.
Qed.
Lemma resolve_iff rs : Forall (fun e => readable_resource (snd e)) rs -> forall l,
  resolve_resources _ _ _ _ _ (load_metadata F parse_f64 env) (fun _ s => ok (resolve_spec F parse_f64 env s)) rs = Ok l <-> resources_stand F parse_f64 env rs l.
Proof using.
  induction rs as [|[name r] rs IH]; intros Hr l; cbn [resolve_resources].
  - split; [intros [= <-]; constructor|]. intros H. now inversion H.
  - inversion Hr as [|? ? [R1 R2] Hr']; subst. cbn in R1, R2. specialize (IH Hr'). split.
    + destruct (load_metadata _ _ _ name (r_meta _ _ _ r)) as [me|] eqn:Em; [|discriminate]. apply load_metadata_iff in Em; [|exact R1].
      destruct (r_spec _ _ _ r) as [s|] eqn:Es.
      * destruct (ok (resolve_spec F parse_f64 env s)) as [sp|] eqn:Ep; [|discriminate]. intros H. apply obind_ok in H. destruct H as (l' & Hl & H). injection H as <-.
        apply ok_iff, (proj1 (C116_exact F parse_f64 env)) in Ep; [|now apply R2]. eapply rs_kept; [eassumption..|now apply IH].
      * intros H. eapply rs_dropped; [eassumption..|now apply IH].
    + intros H. inversion H as [|? ? me ? ? E Hme Hrest|? ? s me sp ? ? E Hme Hsp Hrest]; subst.
      * apply (load_metadata_iff name) in Hme; [|exact R1]. rewrite Hme, E. now apply IH.
      * apply (load_metadata_iff name) in Hme; [|exact R1]. apply (proj1 (C116_exact F parse_f64 env)) in Hsp; [|now apply R2]. rewrite Hme, E, Hsp. cbn [ok]. apply IH in Hrest. rewrite Hrest. reflexivity.
Qed.
Lemma typed_ok vs : typed_vars F vs = true <-> forall name x, In (name, x) vs -> va_type F x <> [].
Proof using.
  unfold typed_vars. rewrite forallb_forall. split.
  - intros H name x Hi E. specialize (H _ Hi). cbn in H. now rewrite E in H.
  - intros H [name x] Hi. specialize (H _ _ Hi). cbn. now destruct (va_type F x).
Qed.
Lemma json_load m b : load_json F parse_f64 k json_text of_int env (YMap m) = Ok b <-> json_loads F parse_f64 k json_text of_int env m b.
Proof using Hk.
  unfold load_json, from_json. rewrite obind_ok.
  transitivity (exists s t rs, top_of _ _ _ _ _ (is_object (json_var F parse_f64 of_int)) (json_blueprint_metadata F parse_f64 k json_text) (fun v rs => exists m ds, v = YMap m /\ resources_declare F parse_f64 k json_text m ds /\ rs = last_ones ds) m s /\
    t_version _ _ _ _ _ s = Some version_text /\ t_transform _ _ _ _ _ s = Some t /\ t_res _ _ _ _ _ s = Some rs /\
    resources_stand F parse_f64 env rs (rb_res _ _ _ _ _ b) /\ rb_version _ _ _ _ _ b = version_text /\ rb_transform _ _ _ _ _ b = Some t /\ rb_vars _ _ _ _ _ b = flatten (t_vars _ _ _ _ _ s) /\
    (forall vs name x, rb_vars _ _ _ _ _ b = Some vs -> In (name, x) vs -> va_type F x <> []) /\ rb_res _ _ _ _ _ b <> [] /\
    match flatten (t_meta _ _ _ _ _ s) with None => rb_meta _ _ _ _ _ b = None | Some x => exists o, both (shared_is F parse_f64 env) x o /\ rb_meta _ _ _ _ _ b = Some o end).
  - assert (FT := fold_top _ _ _ _ _ read_meta read_sel read_spec (fun v => ok (j_vars F parse_f64 of_int v)) (fun v => ok (j_blueprint_metadata F parse_f64 k json_text v))
      (is_object (json_var F parse_f64 of_int)) (json_blueprint_metadata F parse_f64 k json_text) (fun v rs => exists m ds, v = YMap m /\ resources_declare F parse_f64 k json_text m ds /\ rs = last_ones ds) vars_iff bmeta_iff res_iff m).
    assert (RB : forall s, top_of _ _ _ _ _ (is_object (json_var F parse_f64 of_int)) (json_blueprint_metadata F parse_f64 k json_text) (fun v rs => exists m ds, v = YMap m /\ resources_declare F parse_f64 k json_text m ds /\ rs = last_ones ds) m s ->
      (forall x, flatten (t_meta _ _ _ _ _ s) = Some x -> forall o, ok (resolve_blueprint_metadata F parse_f64 env x) = Some o <-> both (shared_is F parse_f64 env) x o) /\
      (forall rs, t_res _ _ _ _ _ s = Some rs -> Forall (fun e => readable_resource (snd e)) rs) /\ (forall t, t_version _ _ _ _ _ s = Some t -> t = version_text)).
    { intros s (_ & [_ Q1] & _ & _ & [_ Q4] & [_ Q5]). split; [|split].
      - intros x Ex o. rewrite ok_iff. apply (proj2 (proj2 (C116_exact F parse_f64 env))). intros y ->.
        destruct Q5 as [(v & a & _ & [[_ ->]|(_ & c & Hc & ->)] & E)|[_ E]]; rewrite E in Ex; try discriminate. cbn in Ex. injection Ex as ->.
        apply bmeta_iff, ok_iff in Hc. exact (proj2 (proj2 (C123_readable F parse_f64 k Hk json_text of_int v)) _ Hc).
      - intros rs Er. destruct Q4 as [(v & a & _ & (m' & ds & -> & Hd & ->) & E)|[_ E]]; rewrite E in Er; [|discriminate]. injection Er as <-.
        apply all_readable in Hd. rewrite Forall_forall in Hd |- *. intros e He. apply Hd. now apply last_sub.
      - intros t Et. destruct Q1 as [(v & a & _ & (_ & ->) & E)|[_ E]]; rewrite E in Et; [|discriminate]. now injection Et. }
    split.
    + intros (bb & Hb & H). apply obind_ok in H. destruct H as (r & Hr & H). unfold json_blueprint in Hb. apply obind_ok in Hb. destruct Hb as (s & Hs & Hb). apply FT in Hs. destruct (RB s Hs) as (RB1 & RB2 & RB3).
      destruct (t_version _ _ _ _ _ s) as [ve|] eqn:Ev; [|discriminate]. destruct (t_transform _ _ _ _ _ s) as [tr|] eqn:Etr; [|discriminate]. destruct (t_res _ _ _ _ _ s) as [rs|] eqn:Er; [|discriminate]. injection Hb as <-.
      specialize (RB3 _ eq_refl). subst ve. specialize (RB2 _ eq_refl). unfold resolve_blueprint in Hr. cbn in Hr. apply obind_ok in Hr. destruct Hr as (l & Hl & Hr). apply resolve_iff in Hl; [|exact RB2].
      unfold validate_blueprint in H.
      assert (X : b = r /\ rb_res _ _ _ _ _ r <> [] /\ (forall vs name x, rb_vars _ _ _ _ _ r = Some vs -> In (name, x) vs -> va_type F x <> [])).
      { destruct (rb_res _ _ _ _ _ r) as [|e l'] eqn:Ee; [discriminate|]. destruct (rb_vars _ _ _ _ _ r) as [vs|] eqn:Evs.
        - destruct (typed_vars F vs) eqn:Et; [|discriminate]. injection H as <-. split; [reflexivity|]. split; [discriminate|]. intros vs' name x [= <-]. revert name x. now apply typed_ok.
        - injection H as <-. split; [reflexivity|]. split; discriminate. }
      destruct X as (-> & X1 & X2). exists s, tr, rs. split; [exact Hs|]. split; [exact Ev|]. split; [exact Etr|]. split; [exact Er|].
      destruct (flatten (t_meta _ _ _ _ _ s)) as [x|] eqn:Ex.
      * destruct (ok (resolve_blueprint_metadata F parse_f64 env x)) as [o|] eqn:Eo; [|discriminate]. injection Hr as <-. cbn in *. apply (RB1 _ eq_refl) in Eo. repeat (split; [first [assumption|reflexivity]|]). eauto.
      * injection Hr as <-. cbn in *. repeat (split; [first [assumption|reflexivity]|]). reflexivity.
    + intros (s & tr & rs & Hs & Ev & Etr & Er & Hl & Bv & Bt & Bva & Bty & Bne & Bm). destruct (RB s Hs) as (RB1 & RB2 & _). apply FT in Hs. specialize (RB2 _ Er). apply resolve_iff in Hl; [|exact RB2].
      eexists. split.
      { unfold json_blueprint. rewrite Hs. cbn [obind]. rewrite Ev, Etr, Er. reflexivity. }
      unfold resolve_blueprint. cbn [b_res b_meta b_version b_transform b_vars]. rewrite Hl. cbn [obind].
      assert (VB : validate_blueprint _ _ _ _ _ (typed_vars F) b = Ok b).
      { unfold validate_blueprint. destruct (rb_res _ _ _ _ _ b) as [|e l'] eqn:Ee; [now elim Bne|]. destruct (rb_vars _ _ _ _ _ b) as [vs|] eqn:Evs; [|reflexivity].
        assert (typed_vars F vs = true) as -> by (apply typed_ok; intros name x; now apply Bty). reflexivity. }
      destruct (flatten (t_meta _ _ _ _ _ s)) as [x|] eqn:Ex.
      * destruct Bm as (o & Ho & Bm). apply (RB1 _ eq_refl) in Ho. rewrite Ho. cbn [obind]. destruct b as [bv bt bva br bm]. cbn in *. subst. exact VB.
      * cbn [obind]. destruct b as [bv bt bva br bm]. cbn in *. subst. exact VB.
  - unfold json_loads. split.
    + intros (s & tr & rs & (Q & Q1 & Q2 & Q3 & Q4 & Q5) & Ev & Etr & Er & Hl & Bv & Bt & Bva & Bty & Bne & Bm).
      rewrite Ev in Q1. rewrite Etr in Q2. rewrite Er in Q4. destruct Q1 as [O1 [(v1 & a1 & Hv1 & (-> & ->) & _)|[_ ?]]]; [|discriminate]. destruct Q2 as [O2 [(v2 & a2 & Hv2 & Ha2 & [= ->])|[_ ?]]]; [|discriminate].
      destruct Q4 as [O4 [(v4 & a4 & Hv4 & (m4 & ds & -> & Hd & ->) & [= ->])|[_ ?]]]; [|discriminate].
      assert (V3 := proj2 (given_opt blueprint_members m (chars "variables") _ _ ltac:(cbn; tauto)) (ex_intro _ _ (conj Q3 eq_refl))). destruct V3 as [O3 V3].
      assert (V5 := proj2 (given_opt blueprint_members m (chars "metadata") _ _ ltac:(cbn; tauto)) (ex_intro _ _ (conj Q5 eq_refl))). destruct V5 as [O5 V5].
      split; [exact Q|]. split; [intros key [<-|[<-|[<-|[<-|[<-|[]]]]]]; assumption|]. split; [exact Hv1|]. split; [exact Bv|]. split; [eauto|]. split; [now rewrite Bva|]. split; [exact Bty|].
      split; [eauto|]. split; [exact Bne|]. destruct (flatten (t_meta _ _ _ _ _ s)) as [x|].
      * destruct Bm as (o & Ho & ->). destruct V5 as [(w & a & Hw & Hn & Ha & E)|[_ E]]; [|discriminate]. injection E as ->. left. exists w, o. split; [exact Hw|]. split; [exact Hn|]. split; [exists a; auto|reflexivity].
      * rewrite Bm. destruct V5 as [(w & a & Hw & Hn & Ha & E)|[Hn _]]; [discriminate|]. right. auto.
    + intros (Q & O & Hv & Bv & (v2 & tr & Hv2 & Ht2 & Bt) & V3 & Bty & (m4 & ds & Hv4 & Hd & Hl) & Bne & V5).
      assert (On : forall key, In key blueprint_members -> occurs_once key m) by exact O.
      destruct (proj1 (given_opt blueprint_members m (chars "variables") _ _ ltac:(cbn; tauto)) (conj (On (chars "variables") ltac:(cbn; tauto)) V3)) as (o3 & Q3 & E3).
      assert (V5' : exists x, field_opt blueprint_members (YMap m) (chars "metadata") (json_blueprint_metadata F parse_f64 k json_text) x /\
        match x with None => rb_meta _ _ _ _ _ b = None | Some x => exists o, both (shared_is F parse_f64 env) x o /\ rb_meta _ _ _ _ _ b = Some o end).
      { destruct V5 as [(w & a & Hw & Hn & (x & Hx & Ho) & E)|[Hn E]]; [exists (Some x)|exists None]; (split; [|try (exists a); auto]); [left; exists w, x; auto|right; auto]. }
      destruct V5' as (x5 & V5' & Bm). destruct (proj1 (given_opt blueprint_members m (chars "metadata") _ _ ltac:(cbn; tauto)) (conj (On (chars "metadata") ltac:(cbn; tauto)) V5')) as (o5 & Q5 & E5).
      exists {| t_version := Some version_text; t_transform := Some tr; t_vars := o3; t_res := Some (last_ones ds); t_meta := o5 |}, tr, (last_ones ds). cbn [t_version t_transform t_vars t_res t_meta]. rewrite E3, E5.
      split; [|repeat (split; [first [reflexivity|assumption]|]); exact Bm]. unfold top_of. cbn [t_version t_transform t_vars t_res t_meta]. split; [exact Q|].
      split; [split; [apply On; cbn; tauto|]; left; exists (YStr version_text), version_text; repeat split; exact Hv|].
      split; [split; [apply On; cbn; tauto|]; left; eauto|]. split; [exact Q3|]. split; [|exact Q5].
      split; [apply On; cbn; tauto|]. left. exists (YMap m4), (last_ones ds). split; [exact Hv4|]. split; [eauto|reflexivity].
Qed.
End Params.
