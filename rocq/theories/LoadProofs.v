(** Lemmas for C120 to C122 *)
From Verif Require Import Base Chars SubstModel ResolveModel ResolveSpec BlueprintModel WfYamlModel WfYamlSpec WfYamlProofs SpecYamlModel SpecYamlSpec SpecYamlProofs SpecYamlProps
  WfResolveModel WfResolveSpec SpecResolveModel SpecResolveSpec SpecResolveProofs SpecResolveProps LoadModel LoadSpec.
Local Open Scope list_scope.
Notation mapping := (list (option text * yaml)).

(** * Loops that set fields *)
Definition reads {A} (m : mapping) (key : text) (fit : yaml -> Prop) (f : yaml -> option A) (d a : A) : Prop :=
  (exists v, In (Some key, v) m /\ fit v /\ f v = Some a) \/ ((forall v, In (Some key, v) m -> ~ fit v) /\ a = d).
Lemma reads_once {A} m key fit (f : yaml -> option A) d a b : NoDup (keys_of m) -> reads m key fit f d a -> reads m key fit f d b -> a = b.
Proof.
  intros Hn [(v & Hv & Ho & Ev)|[Hl ->]] [(w & Hw & Hp & Ew)|[Hl' ->]].
  - assert (v = w) as <- by (eapply keys_once; eassumption). congruence.
  - now elim (Hl' v Hv).
  - now elim (Hl w Hw).
  - reflexivity.
Qed.
Lemma reads_entry {A} m key fit (f : yaml -> option A) d a v : NoDup (keys_of m) -> reads m key fit f d a -> In (Some key, v) m -> fit v -> f v = Some a.
Proof.
  intros Hn [(w & Hw & Ho & Ew)|[Hl ->]] Hv Hf; [|now elim (Hl v Hv)]. assert (v = w) as -> by (eapply keys_once; eassumption). exact Ew.
Qed.
Section Fold.
Context {E X : Type}.
Variable step : X -> option text * yaml -> outcome E X.
Variable I : X -> Prop.
Hypothesis HI : forall x e x', I x -> step x e = Ok x' -> I x'.
Definition field {A} (g : X -> A) (key : text) (fit : yaml -> Prop) (f : yaml -> option A) : Prop :=
  (forall x v x', I x -> step x (Some key, v) = Ok x' -> (fit v /\ f v = Some (g x')) \/ (~ fit v /\ g x' = g x)) /\
  (forall x kx v x', I x -> kx <> Some key -> step x (kx, v) = Ok x' -> g x' = g x).
Lemma fold_reads {A} (g : X -> A) key fit f m : field g key fit f -> NoDup (keys_of m) -> forall x x', I x -> fold_outcome step x m = Ok x' ->
  reads m key fit f (g x) (g x').
Proof.
  intros [Hs Hk]. induction m as [|[kx v] m IH]; intros Hn x x' Ix; cbn [fold_outcome].
  - intros H. injection H as <-. right. split; [intros v []|reflexivity].
  - intros H. apply obind_ok in H. destruct H as (y & Hy & Hf).
    assert (Hn' : NoDup (keys_of m)). { unfold keys_of in Hn |- *. cbn in Hn. destruct kx; [now inversion Hn|exact Hn]. }
    destruct (IH Hn' y x' (HI _ _ _ Ix Hy) Hf) as [(w & Hw & Q)|(Hl & Eq)]; [left; exists w; split; [now right|exact Q]|].
    assert (D : kx = Some key \/ kx <> Some key).
    { destruct kx as [key'|]; [|right; discriminate]. destruct (text_eqb_spec key' key); [left|right]; congruence. }
    destruct D as [->|D].
    + destruct (Hs _ _ _ Ix Hy) as [(Ho & Ef)|(Ho & Eg)].
      * left. exists v. repeat split; [now left|exact Ho|congruence].
      * right. split; [|congruence]. intros w [W|Hw]; [injection W as <-; exact Ho|now apply Hl].
    + right. split; [|rewrite Eq; now apply Hk with (kx := kx) (v := v)].
      intros w [W|Hw]; [injection W as W _; now elim D|now apply Hl].
Qed.
Lemma fold_all m : (forall kx v, In (kx, v) m -> forall x, I x -> exists x', step x (kx, v) = Ok x') -> forall x, I x -> exists x', fold_outcome step x m = Ok x'.
Proof.
  induction m as [|[kx v] m IH]; intros H x Ix; cbn; [eauto|]. destruct (H kx v (or_introl eq_refl) x Ix) as (y & Hy). rewrite Hy. cbn [obind].
  apply IH; [|eapply HI; eassumption]. intros kx' v' Hi. apply H. now right.
Qed.
Lemma fold_keeps m : forall x x', I x -> fold_outcome step x m = Ok x' -> I x'.
Proof. induction m as [|e m IH]; intros x x' Ix; cbn [fold_outcome]; intros H; [injection H as <-; exact Ix|]. apply obind_ok in H. destruct H as (y & Hy & H). eauto. Qed.
End Fold.

Lemma map_dec v : is_a_mapping v \/ ~ is_a_mapping v.
Proof. destruct v; try (right; intros (? & ?); discriminate). left. eexists. reflexivity. Qed.

(** * The document, for any readers *)
Section Generic.
Variables M L S V B RM RS RB : Type.
Variable read_meta : yaml -> option M.
Variable read_selector : yaml -> option L.
Variable read_spec : rtype -> yaml -> option S.
Variable read_vars : yaml -> option V.
Variable read_bmeta : yaml -> option B.
Variable resolve_meta : text -> option M -> option RM.
Variable resolve_spec : text -> S -> option RS.
Variable resolve_bmeta : B -> option RB.
Notation resource := (resource M L S).
Notation blueprint := (blueprint M L S V B).
Notation yaml_field := (yaml_field M L S read_meta read_selector read_spec).
Notation yaml_resource := (yaml_resource M L S read_meta read_selector read_spec).
Notation yaml_entry := (yaml_entry M L S V B read_meta read_selector read_spec read_vars read_bmeta).

Definition mapped {A} (f : yaml -> option A) (v : yaml) : option (option A) := if is_map v then option_map Some (f v) else None.
Definition the_text (v : yaml) : option (option text) := match v with YStr t => Some (Some t) | _ => None end.
Definition any (v : yaml) : Prop := True.
Ltac key_cases key :=
  destruct (text_eqb_spec key (chars "metadata")) as [->|?]; [|destruct (text_eqb_spec key (chars "linkSelector")) as [->|?]; [|destruct (text_eqb_spec key (chars "description")) as [->|?]; [|destruct (text_eqb_spec key (chars "spec")) as [->|?]]]].
Ltac step_in H := unfold BlueprintModel.yaml_field in H; cbn [fst snd] in H.
Lemma field_keeps ty r e r' : r_type _ _ _ r = ty -> yaml_field r e = Ok r' -> r_type _ _ _ r' = ty.
Proof using.
  intros Et H. step_in H. destruct e as [[key|] v]; cbn [fst snd] in H; [|injection H as <-; exact Et]. key_cases key; cbn in H.
  - destruct (is_map v); [|discriminate]. destruct (read_meta v); [|discriminate]. injection H as <-. exact Et.
  - destruct (is_map v); [|discriminate]. destruct (read_selector v); [|discriminate]. injection H as <-. exact Et.
  - destruct v; try discriminate. injection H as <-. exact Et.
  - destruct (is_map v); [|discriminate]. destruct (read_spec _ v); [|discriminate]. injection H as <-. exact Et.
  - injection H as <-. exact Et.
Qed.
Ltac fields_tac H :=
  split; [intros x v x' Ix H; step_in H; cbn in H; left; split; [exact Logic.I|]|intros x [key|] v x' Ix Hne H; step_in H; [key_cases key; cbn in H; try congruence|injection H as <-; reflexivity]];
  unfold mapped, the_text in *; repeat match type of H with
  | context [is_map ?v] => destruct (is_map v); [|discriminate]
  | context [read_meta ?v] => destruct (read_meta v); [|discriminate]
  | context [read_selector ?v] => destruct (read_selector v); [|discriminate]
  | context [read_spec ?t ?v] => try match goal with J : r_type _ _ _ _ = _ |- _ => rewrite J in H end; destruct (read_spec _ v); [|discriminate]
  | context [match ?v with YStr _ => _ | _ => _ end] => destruct v; try discriminate
  end; try (injection H as <-; reflexivity).
Lemma resource_ok m r : NoDup (keys_of m) -> (yaml_resource m = Ok r <->
  (exists t, In (Some (chars "type"), YStr t) m /\ yaml_type t = Ok (r_type _ _ _ r)) /\
  reads m (chars "metadata") any (mapped read_meta) None (r_meta _ _ _ r) /\
  reads m (chars "linkSelector") any (mapped read_selector) None (r_sel _ _ _ r) /\
  reads m (chars "description") any the_text None (r_desc _ _ _ r) /\
  reads m (chars "spec") any (mapped (read_spec (r_type _ _ _ r))) None (r_spec _ _ _ r) /\
  exists s, r_spec _ _ _ r = Some s).
Proof using.
  intros Hn.
  assert (G : forall v, get (chars "type") m = Some v <-> In (Some (chars "type"), v) m).
  { clear -Hn. intros v. induction m as [|[[key|] w] m IH]; cbn [get].
    - split; [discriminate|intros []].
    - assert (Hn' : NoDup (keys_of m)) by (unfold keys_of in Hn |- *; cbn in Hn; now inversion Hn). destruct (text_eqb_spec key (chars "type")) as [->|Hk].
      + split; [intros H; injection H as <-; now left|]. intros [H|H]; [now injection H as <-|]. exfalso. unfold keys_of in Hn. cbn in Hn. apply NoDup_cons_iff in Hn. apply (proj1 Hn). apply keys_in. eauto.
      + rewrite (IH Hn'). split; [now right|]. intros [H|H]; [injection H as -> _; now elim Hk|exact H].
    - assert (Hn' : NoDup (keys_of m)) by exact Hn. rewrite (IH Hn'). split; [now right|]. intros [H|H]; [discriminate|exact H]. }
  assert (FW : forall ty x, fold_outcome yaml_field {| r_type := ty; r_meta := None; r_spec := None; r_desc := None; r_sel := None |} m = Ok x ->
    r_type _ _ _ x = ty /\ reads m (chars "metadata") any (mapped read_meta) None (r_meta _ _ _ x) /\ reads m (chars "linkSelector") any (mapped read_selector) None (r_sel _ _ _ x) /\
    reads m (chars "description") any the_text None (r_desc _ _ _ x) /\ reads m (chars "spec") any (mapped (read_spec ty)) None (r_spec _ _ _ x)).
  { intros ty x H. split; [|split; [|split; [|split]]].
    - revert H. now apply (fold_keeps yaml_field (fun r => r_type _ _ _ r = ty) (field_keeps ty)).
    - change None with (r_meta M L S {| r_type := ty; r_meta := None; r_spec := None; r_desc := None; r_sel := None |}) at 1; eapply (fold_reads yaml_field (fun r => r_type _ _ _ r = ty) (field_keeps ty) (r_meta M L S)); [|exact Hn|reflexivity|exact H]. clear H x. (let Hf := fresh in fields_tac Hf).
    - change None with (r_sel M L S {| r_type := ty; r_meta := None; r_spec := None; r_desc := None; r_sel := None |}) at 1; eapply (fold_reads yaml_field (fun r => r_type _ _ _ r = ty) (field_keeps ty) (r_sel M L S)); [|exact Hn|reflexivity|exact H]. clear H x. (let Hf := fresh in fields_tac Hf).
    - change None with (r_desc M L S {| r_type := ty; r_meta := None; r_spec := None; r_desc := None; r_sel := None |}) at 1; eapply (fold_reads yaml_field (fun r => r_type _ _ _ r = ty) (field_keeps ty) (r_desc M L S)); [|exact Hn|reflexivity|exact H]. clear H x. (let Hf := fresh in fields_tac Hf).
    - change None with (r_spec M L S {| r_type := ty; r_meta := None; r_spec := None; r_desc := None; r_sel := None |}) at 1; eapply (fold_reads yaml_field (fun r => r_type _ _ _ r = ty) (field_keeps ty) (r_spec M L S)); [|exact Hn|reflexivity|exact H]. clear H x. (let Hf := fresh in fields_tac Hf). }
  unfold BlueprintModel.yaml_resource. split.
  - destruct (get (chars "type") m) as [[t| | | | | |]|] eqn:Eg; try discriminate. intros H. apply obind_ok in H. destruct H as (ty & Ht & H).
    apply obind_ok in H. destruct H as (x & Hx & H). apply FW in Hx. destruct Hx as (E & H1 & H2 & H3 & H4).
    destruct (r_spec _ _ _ x) as [s|] eqn:Es; [|discriminate]. injection H as <-. split; [exists t; split; [now apply G|congruence]|].
    rewrite E, Es. repeat (split; [assumption|]). now exists s.
  - intros ((t & Ht & Ety) & H1 & H2 & H3 & H4 & s & Hs). apply G in Ht. rewrite Ht. rewrite Ety. cbn [obind].
    assert (R : exists x, fold_outcome yaml_field {| r_type := r_type _ _ _ r; r_meta := None; r_spec := None; r_desc := None; r_sel := None |} m = Ok x).
    { apply (fold_all yaml_field (fun x => r_type _ _ _ x = r_type _ _ _ r) (field_keeps _)); [|reflexivity]. intros [key|] v Hi x Ix; unfold BlueprintModel.yaml_field; cbn [fst snd]; [|eauto].
      key_cases key; cbn; [| | | |eauto].
      - pose proof (reads_entry _ _ _ _ _ _ _ Hn H1 Hi Logic.I) as Ev. unfold mapped in Ev. destruct (is_map v); [|discriminate]. destruct (read_meta v); [|discriminate]. cbn. eauto.
      - pose proof (reads_entry _ _ _ _ _ _ _ Hn H2 Hi Logic.I) as Ev. unfold mapped in Ev. destruct (is_map v); [|discriminate]. destruct (read_selector v); [|discriminate]. cbn. eauto.
      - pose proof (reads_entry _ _ _ _ _ _ _ Hn H3 Hi Logic.I) as Ev. destruct v; try discriminate. eauto.
      - pose proof (reads_entry _ _ _ _ _ _ _ Hn H4 Hi Logic.I) as Ev. unfold mapped in Ev. rewrite Ix. destruct (is_map v); [|discriminate]. destruct (read_spec _ v); [|discriminate]. cbn. eauto. }
    destruct R as (x & Hx). rewrite Hx. cbn [obind]. apply FW in Hx. destruct Hx as (E & G1 & G2 & G3 & G4).
    pose proof (reads_once _ _ _ _ _ _ _ Hn G1 H1) as U1. pose proof (reads_once _ _ _ _ _ _ _ Hn G2 H2) as U2. pose proof (reads_once _ _ _ _ _ _ _ Hn G3 H3) as U3.
    pose proof (reads_once _ _ _ _ _ _ _ Hn G4 H4) as U4. destruct x, r. cbn in *. subst. reflexivity.
Qed.

Lemma type_not_panic t : yaml_type t <> Panic.
Proof using. unfold yaml_type. repeat (destruct (text_eqb _ _); [discriminate|]). discriminate. Qed.
Lemma type_known t ty : yaml_type t = Ok ty <-> In (t, ty) type_names.
Proof using.
  unfold yaml_type, type_names. cbn [In].
  repeat match goal with |- context [text_eqb t ?n] => destruct (text_eqb_spec t n) as [->|?] end;
  (split; [intros H; try discriminate H; injection H as <-; tauto|]);
  intros H; repeat (destruct H as [H|H]; [try (injection H; intros; congruence); try (injection H; intros; subst; reflexivity)|]); destruct H.
Qed.
Lemma type_unknown t : yaml_type t = Err EUnsupported <-> ~ In t (map fst type_names).
Proof using.
  split.
  - intros H Hi. apply in_map_iff in Hi. destruct Hi as ([t' ty] & E & Hi). cbn in E. subst t'. apply type_known in Hi. congruence.
  - intros H. destruct (yaml_type t) as [ty|e|] eqn:E.
    + elim H. apply in_map_iff. exists (t, ty). split; [reflexivity|now apply type_known].
    + unfold yaml_type in E. repeat (destruct (text_eqb _ _); [discriminate|]). symmetry; exact E.
    + now elim (type_not_panic t).
Qed.
Lemma get_type m : NoDup (keys_of m) -> forall v, get (chars "type") m = Some v <-> In (Some (chars "type"), v) m.
Proof using.
  intros Hn v. induction m as [|[[key|] w] m IH]; cbn [get].
  - split; [discriminate|intros []].
  - assert (Hn' : NoDup (keys_of m)) by (unfold keys_of in Hn |- *; cbn in Hn; now inversion Hn). destruct (text_eqb_spec key (chars "type")) as [->|Hk].
    + split; [intros H; injection H as <-; now left|]. intros [H|H]; [now injection H as <-|]. exfalso. unfold keys_of in Hn. cbn in Hn. apply NoDup_cons_iff in Hn. apply (proj1 Hn). apply keys_in. eauto.
    + rewrite (IH Hn'). split; [now right|]. intros [H|H]; [injection H as -> _; now elim Hk|exact H].
  - assert (Hn' : NoDup (keys_of m)) by exact Hn. rewrite (IH Hn'). split; [now right|]. intros [H|H]; [discriminate|exact H].
Qed.
Lemma resource_ignored m : NoDup (keys_of m) -> (yaml_resource m = Err EUnsupported <-> exists t, In (Some (chars "type"), YStr t) m /\ ~ In t (map fst type_names)).
Proof using.
  intros Hn. unfold BlueprintModel.yaml_resource. split.
  - destruct (get (chars "type") m) as [[t| | | | | |]|] eqn:Eg; try discriminate. apply (get_type m Hn) in Eg. destruct (yaml_type t) as [ty|e|] eqn:Et; cbn [obind].
    + intros H. exfalso. destruct (fold_outcome _ _ m) as [x|e|] eqn:Ef; cbn [obind] in H; [destruct (r_spec _ _ _ x); discriminate| |discriminate]. injection H as ->.
      revert Ef. generalize {| r_type := ty; r_meta := None (A := M); r_spec := None (A := S); r_desc := None; r_sel := None (A := L) |}.
      clear. induction m as [|[[key|] v] m IH]; intros x; cbn [fold_outcome]; try discriminate; [|apply IH].
      unfold BlueprintModel.yaml_field at 1; cbn [fst snd]. key_cases key; cbn.
      * destruct (is_map v); [|discriminate]. destruct (read_meta v); [apply IH|discriminate].
      * destruct (is_map v); [|discriminate]. destruct (read_selector v); [apply IH|discriminate].
      * destruct v; try discriminate. apply IH.
      * destruct (is_map v); [|discriminate]. destruct (read_spec _ v); [apply IH|discriminate].
      * repeat match goal with |- context [text_eqb key ?n] => destruct (text_eqb_spec key n); [contradiction|] end. apply IH.
    + intros H. injection H as ->. exists t. split; [exact Eg|now apply type_unknown].
    + discriminate.
  - intros (t & Ht & Hu). apply (get_type m Hn) in Ht. rewrite Ht. apply type_unknown in Hu. now rewrite Hu.
Qed.
(** The resources *)
Inductive kept : list (text * mapping) -> list (text * resource) -> Prop :=
| k_none : kept [] []
| k_ignored name m l rs : yaml_resource m = Err EUnsupported -> kept l rs -> kept ((name, m) :: l) rs
| k_kept name m r l rs : yaml_resource m = Ok r -> kept l rs -> kept ((name, m) :: l) ((name, r) :: rs).
Lemma put_new {A} name (x : A) l : ~ In name (map fst l) -> put name x l = l ++ [(name, x)].
Proof using.
  intros H. unfold put. f_equal. induction l as [|[n y] l IH]; cbn; [reflexivity|]. cbn in H. destruct (text_eqb_spec n name) as [->|Hn]; [elim H; now left|]. cbn. f_equal. apply IH. intros Hc. apply H. now right.
Qed.
Lemma resources_ok rm : NoDup (keys_of rm) -> forall acc rs, (forall n, In n (map fst acc) -> ~ In n (keys_of rm)) ->
  (fold_outcome (yaml_resources_step M L S read_meta read_selector read_spec) acc rm = Ok rs <-> exists l, kept (named_maps rm) l /\ rs = acc ++ l).
Proof using.
  induction rm as [|[kx v] rm IH]; intros Hn acc rs Ha; cbn [fold_outcome].
  - split; [intros H; injection H as <-; exists []; split; [constructor|now rewrite app_nil_r]|]. intros (l & Hl & ->). inversion Hl; subst. now rewrite app_nil_r.
  - assert (Hn' : NoDup (keys_of rm)). { unfold keys_of in Hn |- *. cbn in Hn. destruct kx; [now inversion Hn|exact Hn]. }
    assert (Ha' : forall n, In n (map fst acc) -> ~ In n (keys_of rm)).
    { intros n Hi Hk. apply (Ha n Hi). unfold keys_of. cbn. destruct kx; [now right|exact Hk]. }
    assert (Skip : (forall (m : mapping), v <> YMap m) \/ kx = None -> (fold_outcome (yaml_resources_step M L S read_meta read_selector read_spec) acc rm = Ok rs <-> exists l, kept (named_maps ((kx, v) :: rm)) l /\ rs = acc ++ l) ).
    { intros D. assert (E : named_maps ((kx, v) :: rm) = named_maps rm).
      { unfold named_maps. cbn. destruct D as [D| ->]; [|reflexivity]. destruct kx as [key|]; [|reflexivity]. destruct v; try reflexivity. now elim (D m). }
      rewrite E. now apply IH. }
    destruct kx as [name|]; cbn [yaml_resources_step obind].
    + destruct v as [t|z|t|b| |l|m]; cbn [obind]; try (apply Skip; left; discriminate).
      assert (Nn : ~ In name (map fst acc)). { intros Hi. apply (Ha name Hi). unfold keys_of. cbn. now left. }
      assert (Nk : ~ In name (keys_of rm)). { unfold keys_of in Hn. cbn in Hn. now inversion Hn. }
      unfold named_maps. cbn [flat_map]. fold (named_maps rm). cbn [app]. destruct (yaml_resource m) as [r|e|] eqn:Er; cbn [obind].
      * rewrite (put_new _ _ _ Nn). rewrite IH; [|exact Hn'|].
        -- split.
           ++ intros (l & Hl & ->). exists ((name, r) :: l). split; [now constructor|]. now rewrite <- app_assoc.
           ++ intros (l & Hl & ->). inversion Hl as [|n m' l' rs' He|n m' r' l' rs' Hr Hl']; subst; [congruence|]. assert (r' = r) as -> by congruence. exists rs'. split; [exact Hl'|]. now rewrite <- app_assoc.
        -- intros n Hi. rewrite map_app in Hi. apply in_app_or in Hi. destruct Hi as [Hi|[<-|[]]]; [now apply Ha'|exact Nk].
      * destruct e; cbn [obind]; try (split; [discriminate|intros (l & Hl & ->); inversion Hl; congruence]).
        rewrite IH; [|exact Hn'|exact Ha']. split; intros (l & Hl & ->); exists l; (split; [|reflexivity]); [now constructor|].
        inversion Hl as [|n m' l' rs' He Hl'|n m' r' l' rs' Hr Hl']; subst; [exact Hl'|congruence].
      * split; [discriminate|]. intros (l & Hl & ->). inversion Hl; congruence.
    + apply Skip. now right.
Qed.
Lemma kept_specs l rs : (forall n m, In (n, m) l -> NoDup (keys_of m)) -> kept l rs -> forall n r, In (n, r) rs -> exists s, r_spec _ _ _ r = Some s.
Proof using.
  intros Hl H. induction H as [|name m l rs He H IH|name m r l rs Hr H IH]; intros n r0 Hi; [destruct Hi| |].
  - eapply IH; [|exact Hi]. intros n' m' Hi'. apply (Hl n'). now right.
  - destruct Hi as [E|Hi]; [injection E as <- <-|eapply IH; [|exact Hi]; intros n' m' Hi'; apply (Hl n'); now right].
    apply resource_ok in Hr; [destruct Hr as (_ & _ & _ & _ & _ & Hr); exact Hr|]. apply (Hl name). now left.
Qed.
(** The document *)
Definition read_version (v : yaml) : option text := match v with YStr t => if text_eqb t version_text then Some t else None | _ => None end.
Definition read_transform (v : yaml) : option (option (list text)) := match v with YStr t => Some (Some [t]) | _ => None end.
Definition read_resources (v : yaml) : option (list (text * resource)) := match v with YMap m => ok (yaml_resources M L S read_meta read_selector read_spec m) | _ => None end.
Definition shares (v : yaml) : Prop := exists m, v = YMap m /\ sets_shared m = true.
Definition blueprint_reads (m : mapping) (b : blueprint) : Prop :=
  reads m (chars "version") is_a_text read_version [] (b_version _ _ _ _ _ b) /\
  reads m (chars "transform") is_a_text read_transform None (b_transform _ _ _ _ _ b) /\
  reads m (chars "variables") is_a_mapping (mapped read_vars) None (b_vars _ _ _ _ _ b) /\
  reads m (chars "resources") is_a_mapping read_resources [] (b_res _ _ _ _ _ b) /\
  reads m (chars "metadata") shares (mapped read_bmeta) None (b_meta _ _ _ _ _ b).
Ltac top_cases key :=
  destruct (text_eqb_spec key (chars "version")) as [->|?]; [|destruct (text_eqb_spec key (chars "transform")) as [->|?]; [|destruct (text_eqb_spec key (chars "variables")) as [->|?]; [|
    destruct (text_eqb_spec key (chars "resources")) as [->|?]; [|destruct (text_eqb_spec key (chars "metadata")) as [->|?]]]]].
Lemma entry_cases x key v x' : yaml_entry x (key, v) = Ok x' ->
  (key = Some (chars "version") /\ is_a_text v /\ exists t, read_version v = Some t /\ x' = {| b_version := t; b_transform := b_transform _ _ _ _ _ x; b_vars := b_vars _ _ _ _ _ x; b_res := b_res _ _ _ _ _ x; b_meta := b_meta _ _ _ _ _ x |}) \/
  (key = Some (chars "transform") /\ is_a_text v /\ exists t, read_transform v = Some t /\ x' = {| b_version := b_version _ _ _ _ _ x; b_transform := t; b_vars := b_vars _ _ _ _ _ x; b_res := b_res _ _ _ _ _ x; b_meta := b_meta _ _ _ _ _ x |}) \/
  (key = Some (chars "variables") /\ is_a_mapping v /\ exists t, mapped read_vars v = Some t /\ x' = {| b_version := b_version _ _ _ _ _ x; b_transform := b_transform _ _ _ _ _ x; b_vars := t; b_res := b_res _ _ _ _ _ x; b_meta := b_meta _ _ _ _ _ x |}) \/
  (key = Some (chars "resources") /\ is_a_mapping v /\ exists t, read_resources v = Some t /\ x' = {| b_version := b_version _ _ _ _ _ x; b_transform := b_transform _ _ _ _ _ x; b_vars := b_vars _ _ _ _ _ x; b_res := t; b_meta := b_meta _ _ _ _ _ x |}) \/
  (key = Some (chars "metadata") /\ shares v /\ exists t, mapped read_bmeta v = Some t /\ x' = {| b_version := b_version _ _ _ _ _ x; b_transform := b_transform _ _ _ _ _ x; b_vars := b_vars _ _ _ _ _ x; b_res := b_res _ _ _ _ _ x; b_meta := t |}) \/
  (x' = x /\ (is_a_text v -> key <> Some (chars "version") /\ key <> Some (chars "transform")) /\ (is_a_mapping v -> key <> Some (chars "variables") /\ key <> Some (chars "resources")) /\
   (shares v -> key <> Some (chars "metadata"))).
Proof using.
  intros H. unfold BlueprintModel.yaml_entry in H. destruct key as [key|].
  2:{ injection H as <-. do 5 right. repeat split; discriminate. }
  destruct v as [t|z|t|b| |l|m].
  - top_cases key; cbn -[version_text] in H.
    + left. split; [reflexivity|]. split; [eexists; reflexivity|]. unfold read_version. destruct (text_eqb t version_text); [|discriminate]. injection H as <-. eauto.
    + right; left. split; [reflexivity|]. split; [eexists; reflexivity|]. injection H as <-. eexists. split; reflexivity.
    + injection H as <-. do 5 right. split; [reflexivity|]. split; [intros _; split; discriminate|]. split; [intros (? & Em); discriminate Em|intros (? & Em & _); discriminate Em].
    + injection H as <-. do 5 right. split; [reflexivity|]. split; [intros _; split; discriminate|]. split; [intros (? & Em); discriminate Em|intros (? & Em & _); discriminate Em].
    + injection H as <-. do 5 right. split; [reflexivity|]. split; [intros _; split; discriminate|]. split; [intros (? & Em); discriminate Em|intros (? & Em & _); discriminate Em].
    + injection H as <-. do 5 right. split; [reflexivity|]. split; [intros _; split; congruence|]. split; [intros (? & Em); discriminate Em|intros (? & Em & _); discriminate Em].
  - injection H as <-. do 5 right. split; [reflexivity|]. split; [intros (? & Em); discriminate Em|]. split; [intros (? & Em); discriminate Em|intros (? & Em & _); discriminate Em].
  - injection H as <-. do 5 right. split; [reflexivity|]. split; [intros (? & Em); discriminate Em|]. split; [intros (? & Em); discriminate Em|intros (? & Em & _); discriminate Em].
  - injection H as <-. do 5 right. split; [reflexivity|]. split; [intros (? & Em); discriminate Em|]. split; [intros (? & Em); discriminate Em|intros (? & Em & _); discriminate Em].
  - injection H as <-. do 5 right. split; [reflexivity|]. split; [intros (? & Em); discriminate Em|]. split; [intros (? & Em); discriminate Em|intros (? & Em & _); discriminate Em].
  - injection H as <-. do 5 right. split; [reflexivity|]. split; [intros (? & Em); discriminate Em|]. split; [intros (? & Em); discriminate Em|intros (? & Em & _); discriminate Em].
  - top_cases key; cbn -[version_text] in H.
    + injection H as <-. do 5 right. split; [reflexivity|]. split; [intros (? & Em); discriminate Em|]. split; [intros _; split; discriminate|intros _; discriminate].
    + injection H as <-. do 5 right. split; [reflexivity|]. split; [intros (? & Em); discriminate Em|]. split; [intros _; split; discriminate|intros _; discriminate].
    + do 2 right; left. split; [reflexivity|]. split; [eexists; reflexivity|]. unfold mapped. cbn. destruct (read_vars (YMap m)); [|discriminate]. injection H as <-. eexists. split; reflexivity.
    + do 3 right; left. split; [reflexivity|]. split; [eexists; reflexivity|]. unfold read_resources. destruct (yaml_resources _ _ _ _ _ _ m); [|discriminate|discriminate]. injection H as <-. eexists. split; reflexivity.
    + destruct (sets_shared m) eqn:Es.
      * do 4 right; left. split; [reflexivity|]. split; [now exists m|]. unfold mapped. cbn. destruct (read_bmeta (YMap m)); [|discriminate]. injection H as <-. eexists. split; reflexivity.
      * injection H as <-. do 5 right. split; [reflexivity|]. split; [intros (? & Em); discriminate Em|]. split; [intros _; split; discriminate|]. intros (m' & Em & Et) _. injection Em as <-. congruence.
    + repeat match type of H with context [if text_eqb key ?n then _ else _] => destruct (text_eqb_spec key n); [contradiction|] end.
      injection H as <-. do 5 right. split; [reflexivity|]. split; [intros (? & Em); discriminate Em|]. split; [intros _; split; congruence|intros _; congruence].
Qed.
Ltac by_cases H := destruct (entry_cases _ _ _ _ H) as [(Ek & Ho & a & Ea & ->)|[(Ek & Ho & a & Ea & ->)|[(Ek & Ho & a & Ea & ->)|[(Ek & Ho & a & Ea & ->)|[(Ek & Ho & a & Ea & ->)|(-> & N1 & N2 & N3)]]]]].
Lemma entry_field_version : field yaml_entry (fun _ => True) (b_version M L S V B) (chars "version") is_a_text read_version.
Proof using.
  split; [intros x v x' _ H|intros x kx v x' _ Hne H]; by_cases H; try discriminate Ek; try congruence; try reflexivity; [left; split; [exact Ho|exact Ea]|].
  right. split; [|reflexivity]. intros Ht. destruct (N1 Ht). congruence.
Qed.
Lemma entry_field_transform : field yaml_entry (fun _ => True) (b_transform M L S V B) (chars "transform") is_a_text read_transform.
Proof using.
  split; [intros x v x' _ H|intros x kx v x' _ Hne H]; by_cases H; try discriminate Ek; try congruence; try reflexivity; [left; split; [exact Ho|exact Ea]|].
  right. split; [|reflexivity]. intros Ht. destruct (N1 Ht). congruence.
Qed.
Lemma entry_field_vars : field yaml_entry (fun _ => True) (b_vars M L S V B) (chars "variables") is_a_mapping (mapped read_vars).
Proof using.
  split; [intros x v x' _ H|intros x kx v x' _ Hne H]; by_cases H; try discriminate Ek; try congruence; try reflexivity; [left; split; [exact Ho|exact Ea]|].
  right. split; [|reflexivity]. intros Ht. destruct (N2 Ht). congruence.
Qed.
Lemma entry_field_res : field yaml_entry (fun _ => True) (b_res M L S V B) (chars "resources") is_a_mapping read_resources.
Proof using.
  split; [intros x v x' _ H|intros x kx v x' _ Hne H]; by_cases H; try discriminate Ek; try congruence; try reflexivity; [left; split; [exact Ho|exact Ea]|].
  right. split; [|reflexivity]. intros Ht. destruct (N2 Ht). congruence.
Qed.
Lemma entry_field_meta : field yaml_entry (fun _ => True) (b_meta M L S V B) (chars "metadata") shares (mapped read_bmeta).
Proof using.
  split; [intros x v x' _ H|intros x kx v x' _ Hne H]; by_cases H; try discriminate Ek; try congruence; try reflexivity; [left; split; [exact Ho|exact Ea]|].
  right. split; [|reflexivity]. intros Ht. exact (N3 Ht eq_refl).
Qed.
Lemma blueprint_ok m b : NoDup (keys_of m) -> (yaml_blueprint M L S V B read_meta read_selector read_spec read_vars read_bmeta (YMap m) = Ok b <->
  blueprint_reads m b /\ b_version _ _ _ _ _ b <> [] /\ b_res _ _ _ _ _ b <> []).
Proof using.
  intros Hn. assert (T : forall x e x', True -> yaml_entry x e = Ok x' -> True) by auto.
  assert (FW : forall b, fold_outcome yaml_entry (empty_blueprint M L S V B) m = Ok b -> blueprint_reads m b).
  { intros b0 H. unfold blueprint_reads. split; [|split; [|split; [|split]]].
    - exact (fold_reads yaml_entry (fun _ => True) T _ _ _ _ m entry_field_version Hn _ _ Logic.I H).
    - exact (fold_reads yaml_entry (fun _ => True) T _ _ _ _ m entry_field_transform Hn _ _ Logic.I H).
    - exact (fold_reads yaml_entry (fun _ => True) T _ _ _ _ m entry_field_vars Hn _ _ Logic.I H).
    - exact (fold_reads yaml_entry (fun _ => True) T _ _ _ _ m entry_field_res Hn _ _ Logic.I H).
    - exact (fold_reads yaml_entry (fun _ => True) T _ _ _ _ m entry_field_meta Hn _ _ Logic.I H). }
  unfold yaml_blueprint. split.
  - intros H. apply obind_ok in H. destruct H as (x & Hx & H). destruct (b_version _ _ _ _ _ x) eqn:Ev; [discriminate|]. destruct (b_res _ _ _ _ _ x) eqn:Er; [discriminate|].
    injection H as <-. split; [now apply FW|]. rewrite Ev, Er. split; discriminate.
  - intros (H & Hv & Hr). assert (R : exists x, fold_outcome yaml_entry (empty_blueprint M L S V B) m = Ok x).
    { destruct H as (H1 & H2 & H3 & H4 & H5). apply (fold_all yaml_entry (fun _ => True) T); [|exact Logic.I]. intros [key|] v Hi x _; unfold BlueprintModel.yaml_entry; [|eauto].
      destruct v as [t|z|t|b0| |l|mm]; eauto.
      - top_cases key; cbn -[version_text]; eauto.
        pose proof (reads_entry _ _ _ _ _ _ _ Hn H1 Hi (ex_intro _ t eq_refl)) as Ev. unfold read_version in Ev. destruct (text_eqb t version_text); [|discriminate]. eauto.
      - top_cases key; cbn -[version_text]; eauto.
        + pose proof (reads_entry _ _ _ _ _ _ _ Hn H3 Hi (ex_intro _ mm eq_refl)) as Ev. unfold mapped in Ev. cbn in Ev. destruct (read_vars (YMap mm)); [|discriminate]. cbn. eauto.
        + pose proof (reads_entry _ _ _ _ _ _ _ Hn H4 Hi (ex_intro _ mm eq_refl)) as Ev. unfold read_resources in Ev. destruct (yaml_resources _ _ _ _ _ _ mm); [|discriminate|discriminate]. cbn. eauto.
        + destruct (sets_shared mm) eqn:Es; [|eauto]. pose proof (reads_entry _ _ _ _ _ _ _ Hn H5 Hi (ex_intro _ mm (conj eq_refl Es))) as Ev. unfold mapped in Ev. cbn in Ev. destruct (read_bmeta (YMap mm)); [|discriminate]. cbn. eauto. }
    destruct R as (x & Hx). rewrite Hx. cbn [obind]. apply FW in Hx. assert (x = b) as ->.
    { destruct H as (H1 & H2 & H3 & H4 & H5), Hx as (G1 & G2 & G3 & G4 & G5).
      pose proof (reads_once _ _ _ _ _ _ _ Hn G1 H1) as U1. pose proof (reads_once _ _ _ _ _ _ _ Hn G2 H2) as U2. pose proof (reads_once _ _ _ _ _ _ _ Hn G3 H3) as U3.
      pose proof (reads_once _ _ _ _ _ _ _ Hn G4 H4) as U4. pose proof (reads_once _ _ _ _ _ _ _ Hn G5 H5) as U5. clear -U1 U2 U3 U4 U5. destruct x, b. cbn in *. subst. reflexivity. }
    destruct (b_version _ _ _ _ _ b); [now elim Hv|]. destruct (b_res _ _ _ _ _ b); [now elim Hr|]. reflexivity.
Qed.
(** Resolution *)
Definition resolves (a : text * resource) (b : text * rresource L RM RS) : Prop :=
  fst a = fst b /\ exists s, r_spec _ _ _ (snd a) = Some s /\ resolve_meta (fst a) (r_meta _ _ _ (snd a)) = Some (rr_meta _ _ _ (snd b)) /\
  resolve_spec (fst a) s = Some (rr_spec _ _ _ (snd b)) /\ rr_type _ _ _ (snd b) = r_type _ _ _ (snd a) /\ rr_desc _ _ _ (snd b) = r_desc _ _ _ (snd a) /\ rr_sel _ _ _ (snd b) = r_sel _ _ _ (snd a).
Lemma resolve_resources_ok rs : (forall n r, In (n, r) rs -> exists s, r_spec _ _ _ r = Some s) -> forall l,
  resolve_resources M L S RM RS resolve_meta resolve_spec rs = Ok l <-> Forall2 resolves rs l.
Proof using.
  induction rs as [|[name r] rs IH]; intros Hs l; cbn [resolve_resources].
  - split; [intros H; injection H as <-; constructor|intros H; now inversion H].
  - destruct (Hs name r (or_introl eq_refl)) as (s & Es). rewrite Es.
    assert (IH' := IH (fun n r0 Hi => Hs n r0 (or_intror Hi))). split.
    + destruct (resolve_meta name (r_meta _ _ _ r)) as [rm|] eqn:Em; [|discriminate]. destruct (resolve_spec name s) as [s'|] eqn:Er; [|discriminate]. intros H. apply obind_ok in H. destruct H as (l' & Hl & H). injection H as <-.
      constructor; [|now apply IH']. split; [reflexivity|]. exists s. cbn. auto 6.
    + intros H. inversion H as [|? [n r'] ? l' (En & s0 & E0 & E1 & E2 & E3 & E4 & E5) Hl]; subst. cbn in *. subst n. assert (s0 = s) as -> by congruence. rewrite E1, E2. apply IH' in Hl. rewrite Hl. cbn [obind].
      destruct r'. cbn in *. subst. reflexivity.
Qed.
End Generic.

(** * With the readers and the resolvers in place *)
Lemma ok_some {E A} (o : outcome E A) a : ok o = Some a <-> o = Ok a.
Proof. destruct o; cbn; split; intros H; try discriminate; now injection H as ->. Qed.
Lemma on_map_some {E A} (f : mapping -> outcome E A) v a : on_map f v = Some a <-> exists m, v = YMap m /\ f m = Ok a.
Proof.
  destruct v; cbn; try (split; [discriminate|intros (m & [=] & _)]). rewrite ok_some. split; [eauto|]. intros (m' & E' & H). injection E' as <-. exact H.
Qed.
Lemma reads_optional {E A} (f : mapping -> outcome E A) (R : mapping -> A -> Prop) m key o :
  (forall m', In (Some key, YMap m') m -> forall a, f m' = Ok a <-> R m' a) ->
  (reads m key any (mapped (on_map f)) None o <-> optional m key (is_mapping R) o).
Proof.
  intros H. unfold reads, mapped. split; (intros [(v & Hv)|[Hl ->]]; [left|right]).
  - destruct Hv as (Hv & _ & Hm). destruct (is_map v) eqn:Ei; [|discriminate]. destruct (on_map f v) as [a|] eqn:Ea; [|discriminate]. injection Hm as <-. apply on_map_some in Ea. destruct Ea as (m' & -> & Ea).
    exists (YMap m'), a. split; [exact Hv|]. split; [|reflexivity]. exists m'. split; [reflexivity|]. now apply H.
  - split; [|reflexivity]. intros Hi. apply keys_in in Hi. destruct Hi as (v & Hi). exact (Hl v Hi Logic.I).
  - destruct Hv as (a & Hv & (m' & -> & Hr) & ->). exists (YMap m'). split; [exact Hv|]. split; [exact Logic.I|]. cbn. apply (H _ Hv) in Hr. rewrite Hr. reflexivity.
  - split; [|reflexivity]. intros v Hv _. apply Hl. apply keys_in. eauto.
Qed.
Lemma reads_text m key o : reads m key any the_text None o <-> optional m key is_string o.
Proof.
  unfold reads, the_text, is_string. split; (intros [(v & Hv)|[Hl ->]]; [left|right]).
  - destruct Hv as (Hv & _ & Hm). destruct v as [t| | | | | |]; try discriminate. injection Hm as <-. exists (YStr t), t. auto.
  - split; [|reflexivity]. intros Hi. apply keys_in in Hi. destruct Hi as (v & Hi). exact (Hl v Hi Logic.I).
  - destruct Hv as (a & Hv & -> & ->). exists (YStr a). repeat split. exact Hv.
  - split; [|reflexivity]. intros v Hv _. apply Hl. apply keys_in. eauto.
Qed.
Lemma reads_lenient {E A} (f : mapping -> outcome E A) (R : mapping -> A -> Prop) m key o :
  (forall m', In (Some key, YMap m') m -> forall a, f m' = Ok a <-> R m' a) ->
  (reads m key is_a_mapping (mapped (on_map f)) None o <-> lenient m key is_a_mapping (is_mapping R) o).
Proof.
  intros H. unfold reads, mapped. split; (intros [(v & Hv)|[Hl ->]]; [left|right; split; [exact Hl|reflexivity]]).
  - destruct Hv as (Hv & (m' & ->) & Hm). cbn in Hm. destruct (f m') as [a| |] eqn:Ea; try discriminate. injection Hm as <-.
    exists (YMap m'), a. split; [exact Hv|]. split; [now exists m'|]. split; [|reflexivity]. exists m'. split; [reflexivity|]. now apply H.
  - destruct Hv as (a & Hv & _ & (m' & -> & Hr) & ->). exists (YMap m'). split; [exact Hv|]. split; [now exists m'|]. cbn. apply (H _ Hv) in Hr. rewrite Hr. reflexivity.
Qed.

Section Concrete.
Variable F : Type.
Variable parse_f64 : text -> option F.
Variable k : classes.
Variable env : text -> option text.
Hypothesis Hk : sane k.
Notation rd_meta := (on_map (y_metadata F parse_f64 k)).
Notation rd_sel := (on_map y_selector).
Notation rd_spec := (fun ty => on_map (y_spec F parse_f64 k ty)).
Notation read_resource := (yaml_resource (metadata F) (list (text * text)) (spec F) rd_meta rd_sel rd_spec).
Notation rsv_spec := (fun (_ : text) s => ok (resolve_spec F parse_f64 env s)).
Notation resolved := (resolves (metadata F) (list (text * text)) (spec F) (rmetadata F) (rspec F) (load_metadata F parse_f64 env) rsv_spec).

Lemma metadata_load m rm : one_each (YMap m) -> (exists x, y_metadata F parse_f64 k m = Ok x /\ resolve_metadata F parse_f64 env x = Ok rm) <-> metadata_loads F parse_f64 k env m rm.
Proof.
  intros Hm. unfold metadata_loads. split; intros (x & Hx & Hr); exists x.
  - assert (R : readable_metadata F x) by (now apply (C116_readable F parse_f64 k Hk m Hm)).
    split; [now apply (C112_rest_exact F parse_f64 k m Hm)|now apply (C116_exact F parse_f64 env)].
  - apply (C112_rest_exact F parse_f64 k m Hm) in Hx. assert (R : readable_metadata F x) by (now apply (C116_readable F parse_f64 k Hk m Hm)).
    split; [exact Hx|now apply (C116_exact F parse_f64 env)].
Qed.
Lemma no_metadata_load rm : resolve_metadata F parse_f64 env (empty_metadata F) = Ok rm <-> rm = no_metadata F.
Proof.
  unfold resolve_metadata, no_metadata. cbn. split; [now intros [= <-]|now intros ->].
Qed.
Lemma resource_load name m r : one_each (YMap m) ->
  ((exists x, read_resource m = Ok x /\ resolved (name, x) (name, r)) <-> resource_loads F parse_f64 k env m r).
Proof.
  intros Hm. pose proof (one_each_keys m Hm) as Hn.
  assert (HM : forall key m', In (Some key, YMap m') m -> one_each (YMap m')) by (intros; eapply one_each_map; eassumption).
  unfold resource_loads. split.
  - intros (x & Hx & (_ & s & Es & Em & Er & Et & Ed & El)). cbn [fst snd] in *. apply resource_ok in Hx; [|exact Hn]. destruct Hx as ((t & Ht & Ety) & H1 & H2 & H3 & H4 & _).
    rewrite Et, Ed, El. split; [|split; [|split; [|split]]].
    + exists t. split; [exact Ht|now apply type_known].
    + apply (reads_optional _ _ _ _ _ (fun m' Hi a => conj (fun H => H) (fun H => H))) in H1. destruct H1 as [(v & a & Hv & (m' & -> & Ha) & E1)|(Hl & E1)]; rewrite E1 in Em; apply ok_some in Em.
      * left. exists (YMap m'). split; [exact Hv|]. exists m'. split; [reflexivity|]. apply metadata_load; [now apply (HM (chars "metadata"))|]. eauto.
      * right. split; [exact Hl|]. now apply no_metadata_load.
    + eapply reads_optional; [|exact H2]. intros m' Hi a. apply (C112_rest_exact F parse_f64 k). eapply HM, Hi.
    + now apply reads_text.
    + apply (reads_optional _ _ _ _ _ (fun m' Hi a => conj (fun H => H) (fun H => H))) in H4. destruct H4 as [(v & a & Hv & (m' & -> & Ha) & E1)|(Hl & E1)]; [|congruence].
      exists (YMap m'). split; [exact Hv|]. exists m'. split; [reflexivity|]. apply ok_some in Er. apply (C116_loaded F parse_f64 env k Hk); [now apply (HM (chars "spec"))|]. exists s. split; [congruence|exact Er].
  - intros ((t & Ht & Ety) & H1 & H2 & H3 & (v & Hv & m' & -> & Hs)).
    apply (C116_loaded F parse_f64 env k Hk) in Hs; [|now apply (HM (chars "spec"))]. destruct Hs as (s & Hs & Hr).
    assert (X : exists o, optional m (chars "metadata") (is_mapping (fun m' a => y_metadata F parse_f64 k m' = Ok a)) o /\ load_metadata F parse_f64 env name o = Some (rr_meta _ _ _ r)).
    { destruct H1 as [(v & Hv1 & (m1 & -> & H1))|(Hl & E1)].
      - apply metadata_load in H1; [|now apply (HM (chars "metadata"))]. destruct H1 as (x & Hx & Hxr). exists (Some x). split.
        + left. exists (YMap m1), x. split; [exact Hv1|]. split; [now exists m1|reflexivity].
        + unfold load_metadata. now apply ok_some.
      - exists None. split; [right; now split|]. unfold load_metadata. apply ok_some. now apply no_metadata_load. }
    destruct X as (o & Ho & Hor).
    exists {| r_type := rr_type _ _ _ r; r_meta := o; r_spec := Some s; r_desc := rr_desc _ _ _ r; r_sel := rr_sel _ _ _ r |}. split.
    + apply resource_ok; [exact Hn|]. cbn. split; [exists t; split; [exact Ht|now apply type_known]|]. split; [|split; [|split; [|split]]].
      * apply (reads_optional _ (fun m' a => y_metadata F parse_f64 k m' = Ok a)); [intros; reflexivity|exact Ho].
      * eapply reads_optional; [|exact H2]. intros m'' Hi a. apply (C112_rest_exact F parse_f64 k). eapply HM, Hi.
      * now apply reads_text.
      * apply (reads_optional _ (fun m' a => y_spec F parse_f64 k (rr_type _ _ _ r) m' = Ok a)); [intros; reflexivity|]. left. exists (YMap m'), s. split; [exact Hv|]. split; [now exists m'|reflexivity].
      * now exists s.
    + split; [reflexivity|]. exists s. cbn. split; [reflexivity|]. split; [exact Hor|]. split; [now apply ok_some|]. auto.
Qed.
Lemma resources_loaded l : (forall n m, In (n, m) l -> one_each (YMap m)) -> forall rs,
  (exists xs, kept (metadata F) (list (text * text)) (spec F) rd_meta rd_sel rd_spec l xs /\ Forall2 resolved xs rs) <-> resources_load F parse_f64 k env l rs.
Proof.
  intros Hl. assert (HK : forall n m, In (n, m) l -> NoDup (keys_of m)) by (intros n m Hi; apply one_each_keys; eapply Hl, Hi).
  induction l as [|[name m] l IH]; intros rs.
  - split.
    + intros (xs & Hx & H2). inversion Hx; subst. inversion H2. constructor.
    + intros H. inversion H. exists []. split; constructor.
  - assert (Hm : one_each (YMap m)) by (apply (Hl name); now left). assert (Hn := one_each_keys m Hm).
    assert (IH' := IH (fun n m' Hi => Hl n m' (or_intror Hi)) (fun n m' Hi => HK n m' (or_intror Hi))). split.
    + intros (xs & Hx & H2). inversion Hx as [|? ? ? xs' He Hx'|? ? x ? xs' Hr Hx']; subst.
      * apply resource_ignored in He; [|exact Hn]. destruct He as (t & Ht & Hu). eapply rl_ignored; [exact Ht|exact Hu|]. apply IH'. eauto.
      * inversion H2 as [|? [n r] ? rs' R H2']; subst. assert (name = n) as <- by exact (proj1 R). apply rl_kept; [|apply IH'; eauto]. apply (resource_load name); [exact Hm|]. eauto.
    + intros H. inversion H as [|? ? t ? ? Ht Hu H'|? ? r ? rs' Hr H']; subst; apply IH' in H'; destruct H' as (xs & Hx & H2).
      * exists xs. split; [|exact H2]. apply k_ignored; [|exact Hx]. apply resource_ignored; [exact Hn|]. eauto.
      * apply (resource_load name) in Hr; [|exact Hm]. destruct Hr as (x & Hr & R). exists ((name, x) :: xs). split; [now apply k_kept|now constructor].
Qed.
Notation rd_vars := (on_map (y_vars F parse_f64)).
Notation rd_shared := (on_map (y_blueprint_metadata F k)).
Notation read_document := (yaml_blueprint (metadata F) (list (text * text)) (spec F) (list (text * var F)) (option (shared F)) rd_meta rd_sel rd_spec rd_vars rd_shared).
Notation resolve_document := (resolve_blueprint (metadata F) (list (text * text)) (spec F) (list (text * var F)) (option (shared F)) (rmetadata F) (rspec F) (option rshared)
  (load_metadata F parse_f64 env) rsv_spec (fun o => ok (resolve_blueprint_metadata F parse_f64 env o))).
Lemma sets_shared_in m : sets_shared m = true <-> exists w, In (Some (chars "sharedHandlerConfig"), YMap w) m.
Proof.
  unfold sets_shared. rewrite existsb_exists. split.
  - intros ([[key|] v] & Hi & H); [|discriminate]. destruct v; try discriminate. destruct (text_eqb_spec key (chars "sharedHandlerConfig")) as [->|]; [|discriminate]. eauto.
  - intros (w & Hi). exists (Some (chars "sharedHandlerConfig"), YMap w). split; [exact Hi|]. destruct (text_eqb_spec (chars "sharedHandlerConfig") (chars "sharedHandlerConfig")); [reflexivity|contradiction].
Qed.
Lemma shared_load m w : one_each (YMap m) -> In (Some (chars "sharedHandlerConfig"), YMap w) m -> forall o,
  (exists x, y_blueprint_metadata F k m = Ok x /\ resolve_blueprint_metadata F parse_f64 env x = Ok o) <-> exists r, o = Some r /\ shared_loads F parse_f64 k env w r.
Proof.
  intros Hm Hw o. pose proof (one_each_keys m Hm) as Hn. destruct (C112_rest_exact F parse_f64 k m Hm) as (_ & _ & _ & EX). split.
  - intros (x & Hx & Hr). assert (R := proj2 (proj2 (C116_readable F parse_f64 k Hk m Hm))). pose proof Hx as Hx'. apply EX in Hx. destruct Hx as [(v & a & Hv & _ & (m' & -> & Ha) & ->)|(Hl & _)]; [|elim (Hl _ Hw); now exists w].
    assert (m' = w) as -> by (assert (E' := keys_once _ _ _ _ Hn Hv Hw); now injection E').
    apply (C116_exact F parse_f64 env) in Hr; [|intros x [= <-]; now apply R]. inversion Hr as [|a' r Hr']; subst. exists r. split; [reflexivity|]. exists a. split; [exact Ha|exact Hr'].
  - intros (r & -> & x & Hx & Hr). exists (Some x).
    assert (Hy : y_blueprint_metadata F k m = Ok (Some x)). { apply EX. left. exists (YMap w), x. split; [exact Hw|]. split; [now exists w|]. split; [|reflexivity]. now exists w. }
    split; [exact Hy|]. apply (C116_exact F parse_f64 env); [|now constructor]. intros x' [= <-]. now apply (C116_readable F parse_f64 k Hk m Hm).
Qed.
Lemma document_load m b : one_each (YMap m) -> (load F parse_f64 k env [YMap m] = Ok b <-> document_loads F parse_f64 k env m b).
Proof.
  intros Hm. pose proof (one_each_keys m Hm) as Hn.
  assert (HM : forall key m', In (Some key, YMap m') m -> one_each (YMap m')) by (intros; eapply one_each_map; eassumption).
  assert (HR : forall rs, In (Some (chars "resources"), YMap rs) m -> forall n m', In (n, m') (named_maps rs) -> one_each (YMap m')).
  { intros rs Hi n m' Hi'. unfold named_maps in Hi'. apply in_flat_map in Hi'. destruct Hi' as ([[key|] v] & Hv & Hi'); [|destruct Hi']. destruct v; try destruct Hi' as [E'|[]]; try destruct Hi'. injection E' as <- <-. eapply one_each_map; [eapply HM, Hi|exact Hv]. }
  change (load F parse_f64 k env [YMap m]) with (let! x := read_document (YMap m) in resolve_document x). unfold document_loads. split.
  - intros H. apply obind_ok in H. destruct H as (x & Hx & H). apply blueprint_ok in Hx; [|exact Hn]. destruct Hx as ((R1 & R2 & R3 & R4 & R5) & Nv & Nr).
    unfold resolve_blueprint in H. apply obind_ok in H. destruct H as (rs & Hrs & H).
    destruct R4 as [(v & Hv & (rm & ->) & Er)|(_ & Er)]; [|contradiction]. cbn [read_resources] in Er. apply ok_some in Er. unfold yaml_resources in Er.
    apply resources_ok in Er; [|apply one_each_keys; eapply HM, Hv|intros n []]. destruct Er as (l & Hl & Er). cbn [app] in Er.
    apply resolve_resources_ok in Hrs; [|rewrite Er; eapply kept_specs; [|exact Hl]; intros n m' Hi; apply one_each_keys; eapply HR; eassumption]. rewrite Er in Hrs, Nr.
    assert (Ld : resources_load F parse_f64 k env (named_maps rm) rs) by (apply (resources_loaded (named_maps rm) (HR rm Hv)); eauto).
    assert (Nrs : rs <> []) by (intros En; rewrite En in Hrs; apply Nr; now inversion Hrs).
    assert (X : rb_version _ _ _ _ _ b = b_version _ _ _ _ _ x /\ rb_transform _ _ _ _ _ b = b_transform _ _ _ _ _ x /\ rb_vars _ _ _ _ _ b = b_vars _ _ _ _ _ x /\ rb_res _ _ _ _ _ b = rs /\
      match b_meta _ _ _ _ _ x with None => rb_meta _ _ _ _ _ b = None | Some y => exists z, resolve_blueprint_metadata F parse_f64 env y = Ok z /\ rb_meta _ _ _ _ _ b = Some z end).
    { destruct (b_meta _ _ _ _ _ x) as [y|].
      - destruct (ok (resolve_blueprint_metadata F parse_f64 env y)) as [z|] eqn:Ez; [|discriminate]. apply ok_some in Ez. injection H as <-. cbn. eauto 8.
      - injection H as <-. cbn. auto 8. }
    destruct X as (X1 & X2 & X3 & X4 & X5). rewrite X1, X2, X3, X4.
    destruct R1 as [(v & Hv1 & (t & ->) & Ev)|(_ & Ev)]; [|contradiction]. cbn [read_version] in Ev. destruct (text_eqb_spec t version_text) as [->|]; [|discriminate]. injection Ev as Ev. rewrite <- Ev.
    split; [exact Hv1|]. split; [reflexivity|]. split; [|split; [|split; [|split; [exact Nrs|]]]].
    + destruct R2 as [(v & Hv2 & (t & ->) & E2)|(Hl2 & E2)]; [left|right; split; [exact Hl2|exact E2]]. injection E2 as E2. rewrite <- E2. exists (YStr t), [t]. split; [exact Hv2|]. split; [now exists t|]. split; [now exists t|reflexivity].
    + eapply reads_lenient; [|exact R3]. intros m' Hi a. apply (C112_rest_exact F parse_f64 k). eapply HM, Hi.
    + eauto.
    + destruct R5 as [(v & Hv5 & (mm & -> & Es) & E5)|(Hl5 & E5)].
      * left. apply sets_shared_in in Es. destruct Es as (w & Hw). cbn in E5. destruct (y_blueprint_metadata F k mm) as [a| |] eqn:Ea; try discriminate. cbn in E5. injection E5 as E5. rewrite <- E5 in X5. destruct X5 as (z & Ez & Eb).
        destruct (proj1 (shared_load mm w (HM _ _ Hv5) Hw z)) as (r & -> & Hr); [eauto|]. exists mm, w, r. auto.
      * right. rewrite E5 in X5. split; [|exact X5]. intros mm w Hi Hw. apply (Hl5 _ Hi). exists mm. split; [reflexivity|]. apply sets_shared_in. eauto.
  - intros (Hv & Ev & H2 & H3 & (rs & Hrs & Ld) & Nrs & H5).
    apply (resources_loaded (named_maps rs) (HR rs Hrs)) in Ld. destruct Ld as (xs & Hx & Hf).
    assert (X : exists o, reads m (chars "metadata") shares (mapped rd_shared) None o /\ match o with None => rb_meta _ _ _ _ _ b = None | Some y => exists z, resolve_blueprint_metadata F parse_f64 env y = Ok z /\ rb_meta _ _ _ _ _ b = Some z end).
    { destruct H5 as [(mm & w & r & Hi & Hw & Hr & E5)|(Hl & E5)].
      - destruct (proj2 (shared_load mm w (HM _ _ Hi) Hw (Some r))) as (y & Hy & Hyr); [eauto|]. exists (Some y). split; [|eauto].
        left. exists (YMap mm). split; [exact Hi|]. split; [exists mm; split; [reflexivity|]; apply sets_shared_in; eauto|]. cbn. now rewrite Hy.
      - exists None. split; [|exact E5]. right. split; [|reflexivity]. intros v Hi (mm & -> & Es). apply sets_shared_in in Es. destruct Es as (w & Hw). exact (Hl mm w Hi Hw). }
    destruct X as (o & Ho & Hmeta).
    set (x := {| b_version := version_text; b_transform := rb_transform _ _ _ _ _ b; b_vars := rb_vars _ _ _ _ _ b; b_res := xs; b_meta := o |} : blueprint (metadata F) (list (text * text)) (spec F) (list (text * var F)) (option (shared F))).
    assert (Hb : read_document (YMap m) = Ok x).
    { apply blueprint_ok; [exact Hn|]. split; [|split; [discriminate|]].
      - split; [|split; [|split; [|split]]].
        + left. exists (YStr version_text). split; [exact Hv|]. split; [eexists; reflexivity|]. reflexivity.
        + destruct H2 as [(v & a & Hv2 & _ & (t & -> & ->) & E2)|(Hl2 & E2)]; cbn [b_transform x]; rewrite E2; [left|right; now split]. exists (YStr t). split; [exact Hv2|]. split; [now exists t|reflexivity].
        + eapply reads_lenient; [|exact H3]. intros m' Hi a. apply (C112_rest_exact F parse_f64 k). eapply HM, Hi.
        + left. exists (YMap rs). split; [exact Hrs|]. split; [now exists rs|]. cbn [read_resources b_res x]. apply ok_some. unfold yaml_resources. apply resources_ok; [apply one_each_keys; eapply HM, Hrs|intros n []|]. eauto.
        + exact Ho.
      - cbn [b_res x]. intros ->. inversion Hf. congruence. }
    rewrite Hb. cbn [obind]. unfold resolve_blueprint.
    assert (Er : resolve_resources (metadata F) (list (text * text)) (spec F) (rmetadata F) (rspec F) (load_metadata F parse_f64 env) rsv_spec (b_res _ _ _ _ _ x) = Ok (rb_res _ _ _ _ _ b)).
    { apply resolve_resources_ok; [|exact Hf]. cbn [b_res x]. eapply kept_specs; [|exact Hx]. intros n m' Hi. apply one_each_keys. eapply HR; eassumption. }
    rewrite Er. cbn [obind b_meta x b_version b_transform b_vars]. destruct o as [y|].
    + destruct Hmeta as (z & Ez & Eb). rewrite Ez. cbn [ok]. destruct b. cbn in *. subst. reflexivity.
    + destruct b. cbn in *. subst. reflexivity.
Qed.
End Concrete.
