(** Theorems about payload templates (C22, C26, C69). *)
From Coq Require Import Permutation.
From Verif Require Import Base Json Chars Value Bytes ScannerModel SubstModel ResolveModel TemplateParserModel TemplateFuncModel PayloadModel PayloadSpec PayloadProofs.
Local Open Scope list_scope.

Section Params.
Variable k : classes.
Variable parse_path : text -> option jpath.
Variable parse_float : text -> option spec_float.
Variable find : jpath -> value -> value.
Variable show_num : num -> text.
Variable json_read : text -> option value.
Variable json_write : value -> text.
Variable sha256 sha384 sha512 : list N -> text.
Variable draw_range : nat -> Z -> Z -> Z.
Variable draw_uuid draw_nanoid : nat -> text.
(** What jsonpath-rust's [find] gives: null or the list of what was found *)
Definition finds : Prop := forall p v, find p v = VNull \/ exists l, find p v = VArr l.

Notation documented := (documented show_num json_read json_write sha256 sha384 sha512 draw_range draw_uuid draw_nanoid).
Notation arg_value := (arg_value find show_num json_read json_write sha256 sha384 sha512 draw_range draw_uuid draw_nanoid).
Notation render := (render k parse_path parse_float find show_num json_read json_write sha256 sha384 sha512 draw_range draw_uuid draw_nanoid).
Notation render_node := (render_node k parse_path parse_float find show_num json_read json_write sha256 sha384 sha512 draw_range draw_uuid draw_nanoid).
Notation renders := (renders k parse_path parse_float find show_num json_read json_write sha256 sha384 sha512 draw_range draw_uuid draw_nanoid).
Notation goes_wrong := (goes_wrong k parse_path parse_float find show_num json_read json_write sha256 sha384 sha512 draw_range draw_uuid draw_nanoid).
Notation crashes := (crashes k parse_path parse_float find show_num json_read json_write sha256 sha384 sha512 draw_range draw_uuid draw_nanoid).
Notation no_random := (no_random k parse_path parse_float).
Notation evaluated := (evaluated k parse_path parse_float).
Notation parse_func := (parse_func k jpath parse_path spec_float parse_float).

(** ** C22 *)
(** What is rendered is what the template stands for. *)
Theorem C22_render : finds -> forall template input n v, proper_maps (RMap template) ->
  fst (render template input n) = Ok v -> renders input (RMap template) v.
Proof. intros Hf t input n v Hp E. pose proof (render_node_ok k parse_path parse_float find Hf show_num json_read json_write sha256 sha384 sha512 draw_range draw_uuid draw_nanoid input _ Hp n) as A. unfold PayloadModel.render in E. rewrite E in A. exact A. Qed.
(** Without the random functions: rendering succeeds exactly when the template stands for a
    document, and gives that document. *)
Theorem C22_render_exact : finds -> forall template input n v, proper_maps (RMap template) -> no_random (RMap template) ->
  (fst (render template input n) = Ok v <-> renders input (RMap template) v).
Proof. intros Hf t input n v Hp Hr. split; [now apply C22_render|]. now apply render_complete. Qed.
(** An error is the error of some scalar of the template. *)
Theorem C22_error : finds -> forall template input n e, proper_maps (RMap template) ->
  fst (render template input n) = Err e -> goes_wrong input (RMap template) e.
Proof. intros Hf t input n e Hp E. pose proof (render_node_ok k parse_path parse_float find Hf show_num json_read json_write sha256 sha384 sha512 draw_range draw_uuid draw_nanoid input _ Hp n) as A. unfold PayloadModel.render in E. rewrite E in A. exact A. Qed.
(** The first error is the result, and nothing after it is evaluated ([n2], the number of
    random draws, is that of the failing part). *)
Lemma first_error_list input a x b n vs n1 e n2 :
  render_node input (RSeq a) n = (Ok vs, n1) -> render_node input x n1 = (Err e, n2) -> render_node input (RSeq (a ++ x :: b)) n = (Err e, n2).
Proof.
  rewrite !render_seq_eq. revert n vs. induction a as [|y a IH]; intros n vs E Ex; cbn [app render_list] in *.
  - injection E as _ <-. now rewrite Ex.
  - destruct (render_node input y n) as [[v|x'|] n']; cbn [bind] in *; try discriminate.
    specialize (IH n'). destruct (render_list _ _ _ _ _ _ _ _ _ _ _ _ _ input a n') as [[ws|x'|] n'']; cbn [bind] in *; try discriminate.
    injection E as _ <-. specialize (IH _ eq_refl Ex). destruct (render_list _ _ _ _ _ _ _ _ _ _ _ _ _ input (a ++ x :: b) n') as [[ws'|x'|] n3]; cbn [bind] in *; [discriminate| |discriminate]. exact IH.
Qed.
Lemma first_error_entries input a key x b n o n1 e n2 acc :
  render_entries k parse_path parse_float find show_num json_read json_write sha256 sha384 sha512 draw_range draw_uuid draw_nanoid input a acc n = (Ok o, n1) -> render_node input x n1 = (Err e, n2) ->
  render_entries k parse_path parse_float find show_num json_read json_write sha256 sha384 sha512 draw_range draw_uuid draw_nanoid input (a ++ (key, x) :: b) acc n = (Err e, n2).
Proof.
  revert acc n. induction a as [|[key' y] a IH]; intros acc n E Ex; cbn [app render_entries] in *.
  - injection E as _ <-. now rewrite Ex.
  - destruct (render_node input y n) as [[v|x'|] n']; cbn [bind] in *; try discriminate. now apply IH.
Qed.
Theorem C22_first_error_sequence : forall input a x b n vs n1 e n2,
  render_node input (RSeq a) n = (Ok vs, n1) -> render_node input x n1 = (Err e, n2) -> render_node input (RSeq (a ++ x :: b)) n = (Err e, n2).
Proof. exact first_error_list. Qed.
Theorem C22_first_error : forall input a key x b n v n1 e n2,
  render a input n = (Ok v, n1) -> render_node input x n1 = (Err e, n2) -> render (a ++ (key, x) :: b) input n = (Err e, n2).
Proof.
  intros input a key x b n v n1 e n2 E Ex. unfold PayloadModel.render in *. rewrite render_map_eq in *.
  destruct (render_entries _ _ _ _ _ _ _ _ _ _ _ _ _ input a [] n) as [[o|x'|] n'] eqn:Ea; cbn [bind] in E; try discriminate. injection E as _ <-.
  now rewrite (first_error_entries input a key x b n o n' e n2 [] Ea Ex).
Qed.
(** The order in which a map is iterated does not matter. *)
Lemma perm_forall2 {A B} (R : A -> B -> Prop) l l' : Permutation l l' -> forall r, Forall2 R l r -> exists r', Permutation r r' /\ Forall2 R l' r'.
Proof.
  induction 1 as [|x l l' P IH|x y l|l l1 l2 P1 IH1 P2 IH2]; intros r F.
  - inversion F; subst. exists []. auto.
  - inversion F as [|? y ? r0 Hx Fl]; subst. destruct (IH r0 Fl) as (r' & Pr & F'). exists (y :: r'). auto.
  - inversion F as [|? b ? r0 Hx Fl]; subst. inversion Fl as [|? c ? r1 Hy Fl']; subst. exists (c :: b :: r1). split; [apply perm_swap|auto].
  - destruct (IH1 r F) as (r1 & Q1 & F1). destruct (IH2 r1 F1) as (r2 & Q2 & F2). exists r2. split; [now transitivity r1|exact F2].
Qed.
Lemma get_perm {A} (a b : list (text * A)) key : Permutation a b -> NoDup (map fst a) -> get key a = get key b.
Proof.
  intros P Nd. assert (Nb : NoDup (map fst b)) by (apply (Permutation_NoDup (Permutation_map fst P)); exact Nd).
  assert (IG : forall (m : list (text * A)) v, NoDup (map fst m) -> In (key, v) m -> get key m = Some v).
  { induction m as [|[k' w] m IH]; intros v N H; [destruct H|]. cbn in N. inversion N; subst. cbn [get]. destruct H as [H|H].
    - injection H as -> ->. now rewrite text_eqb_refl.
    - rewrite text_eqb_neq; [now apply IH|]. intros ->. elim H2. now apply (in_map fst) in H. }
  destruct (get key a) as [v|] eqn:Ea.
  - symmetry. apply IG; [exact Nb|]. apply (Permutation_in _ P). now apply get_In.
  - destruct (get key b) as [v|] eqn:Eb; [|reflexivity]. apply get_In in Eb. apply (Permutation_in _ (Permutation_sym P)) in Eb. rewrite (IG a v Nd Eb) in Ea. discriminate.
Qed.
Theorem C22_order : finds -> forall m m' input n n' v, Permutation m m' -> proper_maps (RMap m) -> no_random (RMap m) ->
  fst (render m input n) = Ok v -> fst (render m' input n') = Ok v.
Proof.
  intros Hf m m' input n n' v P Hp Hr E. apply C22_render in E; auto. inversion Hp as [| | |? Nd Hm]; subst. assert (Hp' : proper_maps (RMap m')).
  { constructor; [apply (Permutation_NoDup (Permutation_map fst P)); exact Nd|]. rewrite Forall_forall in *. intros x Hx. apply Hm. now apply (Permutation_in _ (Permutation_sym P)). }
  apply C22_render_exact; auto.
  - intros nm args (u & c & L & R). apply (Hr nm args). exists u, c. split; [|exact R]. inversion L as [| |? key x Hin Lx]; subst. apply L_map with key x; [now apply (Permutation_in _ (Permutation_sym P))|exact Lx].
  - inversion E as [| | | | | | | |? kvs o Hvs So G]; subst. destruct (perm_forall2 _ _ _ P kvs Hvs) as (kvs' & Pk & Hvs'). apply R_map with kvs'; auto. intros key. rewrite G. apply get_perm; [exact Pk|].
    replace (map fst kvs) with (map fst m); [exact Nd|]. clear - Hvs. induction Hvs as [|x y m kvs [E _] F IH]; [reflexivity|]. cbn. now rewrite E, IH.
Qed.

(** ** C26 *)
Notation inject := (inject parse_path).
Notation extract := (extract parse_path find).
Theorem C26_inject : forall path f m v, parse_path path = Some (JChain [JRoot; JField f]) -> keys_sorted m ->
  exists m', inject (VObj m) path v = Ok (VObj m') /\ keys_sorted m' /\ get f m' = Some v /\ forall g, g <> f -> get g m' = get g m.
Proof.
  intros path f m v E Hs. unfold PayloadModel.inject. rewrite E. exists (set f v m). split; [reflexivity|]. split; [now apply set_sorted|]. split; [apply get_set_eq|]. intros g Hg. apply get_set_neq. congruence.
Qed.
(** Exactly when and what is injected *)
Theorem C26_inject_exact : forall doc path v d, inject doc path v = Ok d <->
  exists m p f, doc = VObj m /\ parse_path path = Some p /\ names_field p f /\ d = VObj (set f v m).
Proof.
  intros doc path v d. unfold PayloadModel.inject. split.
  - destruct (parse_path path) as [p|]; [|discriminate]. unfold inject_root. destruct doc; try discriminate. destruct (root_field p) as [f|] eqn:E; [|discriminate].
    intros H. injection H as <-. exists m, p, f. repeat split; auto. now apply root_field_iff.
  - intros (m & p & f & -> & -> & N & ->). unfold inject_root. now rewrite (proj2 (root_field_iff p f) N).
Qed.
(** Otherwise it is an error, and the document is not touched. *)
Theorem C26_fails : forall doc path v, (forall m, doc <> VObj m) \/ (forall p f, parse_path path = Some p -> ~ names_field p f) ->
  inject doc path v = Err JsonPathError /\ forall p, parse_path path = Some p -> inject_root p doc v = (doc, false).
Proof.
  intros doc path v H. unfold PayloadModel.inject.
  assert (A : forall p, parse_path path = Some p -> inject_root p doc v = (doc, false)).
  { intros p E. unfold inject_root. destruct doc; try reflexivity. destruct H as [H|H]; [now elim (H m)|]. destruct (root_field p) as [f|] eqn:R; [|reflexivity]. apply root_field_iff in R. now elim (H p f E). }
  split; [|exact A]. destruct (parse_path path) as [p|]; [|reflexivity]. now rewrite (A p eq_refl).
Qed.
(** A path without a root that goes on after its first field is cut to that field instead of
    being refused: the whole field is overwritten. *)
Theorem C26_other_path_refuted : forall path f x m v, parse_path path = Some (JChain [JField f; x]) ->
  inject (VObj m) path v = Ok (VObj (set f v m)).
Proof. intros path f x m v E. unfold PayloadModel.inject. now rewrite E. Qed.
(** What was injected is extracted again by the same path. *)
Theorem C26_extract : (forall f m, find (JChain [JRoot; JField f]) (VObj m) = match get f m with Some v => VArr [v] | None => VNull end) ->
  forall path f m v d, parse_path path = Some (JChain [JRoot; JField f]) -> inject (VObj m) path v = Ok d -> extract d path = Ok v.
Proof.
  intros Hf path f m v d E. unfold PayloadModel.inject, PayloadModel.extract. rewrite E. cbn [inject_root root_field length Nat.eqb Nat.ltb Nat.leb orb chain_field]. intros H. injection H as <-.
  unfold extract_value. now rewrite Hf, get_set_eq.
Qed.
(** An injected list with one element is extracted as that list, too; but a path that finds
    one element of a list and one that finds the element's members are told apart only by
    what they find: a list found once and its elements found one by one give the same. *)
Theorem C22_selection_ambiguous_refuted : forall p q input l, length l <> 1 ->
  find p input = VArr [VArr l] -> find q input = VArr l -> forall a b, parse_path a = Some p -> parse_path b = Some q -> extract input a = extract input b.
Proof. intros p q input l Hl Ep Eq a b Ea Eb. unfold PayloadModel.extract, extract_value. rewrite Ea, Eb, Ep, Eq. destruct l as [|x [|y l]]; try reflexivity. now elim Hl. Qed.

(** ** C69 *)
(** The calls that crash, exactly *)
Theorem C69_functions : forall name f n args, documented name f -> (f n args = Panic <-> crash name args).
Proof.
  assert (NB : forall n, as_i64 n = None <-> ~ bound n).
  { intros [z|f]; cbn; [destruct (Z.ltb_spec z 9223372036854775808); split; intros A; try discriminate|]; auto.
    - elim A. exists z. auto.
    - intros (y & E & Hy). injection E as <-. lia.
    - split; [intros _ (y & E & _); discriminate|reflexivity]. }
  assert (NI : forall n, as_u64 n = None <-> ~ index n).
  { intros [z|f]; cbn; [destruct (Z.leb_spec 0 z); split; intros A; try discriminate|]; auto.
    - elim A. exists z. auto.
    - intros (y & E & Hy). injection E as <-. lia.
    - split; [intros _ (y & E & _); discriminate|reflexivity]. }
  assert (AR : forall op args, arith op args = Panic <-> exists a b, args = [VNum a; VNum b] /\ ~ finite (op (as_f64 a) (as_f64 b))).
  { intros op [|a [|b [|c args]]]; try (split; [discriminate|intros (x & y & E & _); discriminate]).
    - destruct a; (split; [discriminate|intros (x & y & E & _); discriminate]).
    - destruct a, b; try (split; [discriminate|intros (x & y & E & _); discriminate]). cbn [arith]. destruct (from_f64 _) eqn:E; split; try discriminate.
      + intros (x & y & X & F). injection X as <- <-. apply from_f64_none in F. congruence.
      + intros _. exists n, n0. split; [reflexivity|now apply from_f64_none].
      + reflexivity.
    - destruct a, b; (split; [discriminate|intros (x & y & E & _); discriminate]). }
  intros name f n args D. destruct D;
    try (split; [|intros C; inversion C; fail]; intros H; exfalso; revert H).
  - unfold format. destruct args as [|[] rest]; try discriminate. destruct (Nat.eqb _ _); [|discriminate]. generalize t. clear. induction rest as [|a rest IH]; intros t; cbn; [discriminate|]. destruct (format_arg show_num a); [apply IH|discriminate].
  - unfold jsondecode. destruct args as [|[] [|]]; try discriminate. destruct (json_read t); discriminate.
  - unfold jsonencode. destruct args as [|? [|]]; discriminate.
  - unfold jsonmerge. destruct args as [|[] [|[] [|]]]; discriminate.
  - unfold b64encode. destruct args as [|[] [|]]; discriminate.
  - unfold b64decode. destruct args as [|[] [|]]; try discriminate. destruct (b64_dec _); discriminate.
  - unfold hash. destruct args as [|[] [|[] [|]]]; try discriminate. repeat destruct (text_eqb _ _); discriminate.
  - discriminate.
  - unfold chunk_list. destruct args as [|[] [|[] [|]]]; try (split; [discriminate|intros C; inversion C]; fail). split.
    + intros H. constructor. intros (z & -> & Hz). cbn in H. rewrite (proj2 (Z.leb_le 0 z)) in H by lia. rewrite (proj2 (Z.eqb_neq z 0)) in H by lia. discriminate.
    + intros C. inversion C as [? ? Hn| | | | | | |]; subst. destruct n0 as [z|]; cbn; [|reflexivity]. destruct (Z.leb_spec 0 z); [|reflexivity]. destruct (Z.eqb_spec z 0); [reflexivity|]. elim Hn. exists z. split; [reflexivity|lia].
  - unfold list_elem. destruct args as [|[] [|[] [|]]]; try (split; [discriminate|intros C; inversion C]; fail). split.
    + intros H. constructor. apply NI. destruct (as_u64 n0); [|reflexivity]. destruct (_ <=? _)%Z; [discriminate|]. destruct (nth_error _ _); discriminate.
    + intros C. inversion C as [|? ? Hn| | | | | |]; subst. apply NI in Hn. now rewrite Hn.
  - unfold remove_duplicates. destruct args as [|[] [|]]; discriminate.
  - unfold contains_fn. destruct args as [|[] [|[] [|]]]; discriminate.
  - unfold split. destruct args as [|[] [|[] [|]]]; discriminate.
  - unfold math_rand. destruct args as [|[] [|b [|]]]; try (split; [discriminate|intros C; inversion C]; fail). destruct (as_i64 n0) as [lo|] eqn:E0.
    + assert (B0 : ~ ~ bound n0) by (rewrite <- NB; congruence). destruct b; try (split; [discriminate|intros C; inversion C; subst; contradiction]; fail). destruct (as_i64 n1) as [hi|] eqn:E1.
      * assert (B1 : ~ ~ bound n1) by (rewrite <- NB; congruence). split; [destruct (_ <=? _)%Z; discriminate|]. intros C. inversion C; subst; contradiction.
      * split; [|reflexivity]. intros _. apply Crash_rand_max; [|now apply NB]. destruct n0 as [z|]; [|discriminate]. cbn in E0. destruct (Z.ltb_spec z 9223372036854775808); [|discriminate]. exists z. auto.
    + split; [|reflexivity]. intros _. apply Crash_rand_min. now apply NB.
  - unfold math_add. rewrite AR. split; [intros (a & b & -> & F); now constructor|intros C; inversion C; subst; eauto].
  - unfold math_sub. rewrite AR. split; [intros (a & b & -> & F); now constructor|intros C; inversion C; subst; eauto].
  - unfold math_mult. rewrite AR. split; [intros (a & b & -> & F); now constructor|intros C; inversion C; subst; eauto].
  - split.
    + unfold math_div. intros H. assert (Z : exists a b, args = [VNum a; VNum b] /\ (forall s, as_f64 b <> S754_zero s) /\ ~ finite (SFdiv 53 1024 (as_f64 a) (as_f64 b))).
      { destruct args as [|[] [|[] [|]]]; cbv beta iota in H; try (apply AR in H; destruct H as (? & ? & X & _); discriminate X). match type of H with context [is_zero ?b] => destruct (is_zero b) eqn:E; [discriminate|] end. apply AR in H. destruct H as (a & b & X & F). injection X as <- <-.
        do 2 eexists. split; [reflexivity|]. split; [|exact F]. intros s Es. rewrite Es in E. discriminate. }
      destruct Z as (a & b & -> & Z1 & Z2). now constructor.
    + intros C. inversion C as [| | | | | | |a b Z F]; subst. cbn [math_div]. assert (is_zero (as_f64 b) = false) as ->. { destruct (as_f64 b) eqn:E; try reflexivity. now elim (Z s). } apply AR. eauto.
  - unfold len. destruct args as [|[] [|]]; discriminate.
  - unfold uuid. destruct args; discriminate.
  - unfold nanoid. destruct args; discriminate.
Qed.
(** Rendering crashes only because of a number that is not finite or one of these calls. *)
Theorem C69_render : finds -> forall template input n, proper_maps (RMap template) -> fst (render template input n) = Panic ->
  (exists f, leaf (SFloat f) (RMap template) /\ ~ finite f) \/
  (exists f, evaluated (EFloat f) (RMap template) /\ ~ finite f) \/
  (exists name args vs, evaluated (ECall (Call name args)) (RMap template) /\ Forall2 (arg_value input) args vs /\ crash name vs).
Proof.
  intros Hf t input n Hp E. pose proof (render_node_ok k parse_path parse_float find Hf show_num json_read json_write sha256 sha384 sha512 draw_range draw_uuid draw_nanoid input _ Hp n) as A. unfold PayloadModel.render in E. rewrite E in A.
  destruct A as [A|[A|(name & args & vs & f & m & Ev & Fa & D & R)]]; auto. right. right. exists name, args, vs. split; [exact Ev|]. split; [exact Fa|]. now apply (C69_functions name f m vs D).
Qed.
(** Every such call does crash the rendering of a template with it. *)
Theorem C69_refuted : finds -> forall u name args vs key input n, parse_func u = inl (Call name args) ->
  (forall nm l a, In a args -> within (ECall (Call nm l)) a -> ~ random_name nm) ->
  Forall2 (arg_value input) args vs -> crash name vs ->
  fst (render [(key, RScalar (SStr (chars "func:" ++ u)))] input n) = Panic.
Proof.
  intros Hf u name args vs key input n E Hr Hvs C.
  assert (A : forall n, fst (compute_args find show_num json_read json_write sha256 sha384 sha512 draw_range draw_uuid draw_nanoid input args n) = Ok vs).
  { clear - Hf Hr Hvs. induction Hvs as [|a w args vs Ha Hvs IHv]; intros n; [reflexivity|]. cbn [compute_args].
    pose proof (compute_complete find Hf show_num json_read json_write sha256 sha384 sha512 draw_range draw_uuid draw_nanoid input a (fun nm l => Hr nm l a (or_introl eq_refl)) w n Ha) as E.
    destruct (compute_arg _ _ _ _ _ _ _ _ _ _ input a n) as [r n1]. cbn [fst] in E. subst r. cbn [bind].
    specialize (IHv (fun nm l b Hb => Hr nm l b (or_intror Hb)) n1). destruct (compute_args _ _ _ _ _ _ _ _ _ _ input args n1) as [r n2]. cbn [fst] in IHv. subst r. reflexivity. }
  unfold PayloadModel.render. rewrite render_map_eq. cbn [render_entries].
  assert (R : fst (render_node input (RScalar (SStr (chars "func:" ++ u))) n) = Panic).
  { cbn [PayloadModel.render_node]. unfold PayloadModel.render_scalar. rewrite call_prefix, skipn_func, E.
    change (fst (PayloadModel.compute_arg find show_num json_read json_write sha256 sha384 sha512 draw_range draw_uuid draw_nanoid input (ECall (Call name args)) n) = Panic). rewrite compute_call_eq. specialize (A n).
    destruct (compute_args _ _ _ _ _ _ _ _ _ _ input args n) as [r n1]. cbn [fst] in A. subst r. cbn [bind].
    destruct (apply_cases show_num json_read json_write sha256 sha384 sha512 draw_range draw_uuid draw_nanoid name vs n1) as [(f & D & ->)|[_ D]].
    - now rewrite (proj2 (C69_functions name f n1 vs D) C).
    - exfalso. destruct C; eapply D; econstructor. }
  destruct (render_node input (RScalar (SStr (chars "func:" ++ u))) n) as [r n1]. cbn [fst] in R. subst r. reflexivity.
Qed.
Theorem C69_float_refuted : forall f key input n, ~ finite f -> fst (render [(key, RScalar (SFloat f))] input n) = Panic.
Proof. intros f key input n H. apply from_f64_none in H. cbn. now rewrite H. Qed.
End Params.

(** ** The hypotheses are met. *)
Definition dot_paths (t : text) : option jpath :=
  match split_text (chars ".") t with
  | [36%N] :: fs => Some (JChain (JRoot :: map JField fs))
  | [] :: fs => Some (JChain (map JField fs))
  | _ => None
  end.
Fixpoint walk (l : list jpath) (v : value) : value :=
  match l with
  | [] => VArr [v]
  | JField f :: l' => match v with VObj m => match get f m with Some w => walk l' w | None => VNull end | _ => VNull end
  | _ :: l' => walk l' v
  end.
Definition dot_find (p : jpath) (v : value) : value := match p with JChain l => walk l v | _ => VArr [] end.
Definition no_text {A} (_ : A) : text := [].
Notation ex_render := (render ascii_classes dot_paths (fun _ => None) dot_find no_text (fun _ => None) no_text no_text no_text no_text (fun _ lo _ => lo) no_text no_text).
Example finds_nonvacuous : finds dot_find.
Proof.
  intros [| |l|] v; cbn; eauto. revert v. induction l as [|p l IH]; intros v; cbn; [eauto|]. destruct p as [|f| |]; auto. destruct v as [| | | | |m]; auto. destruct (get f m); auto.
Qed.
Definition ex_template : list (text * rnode spec_float) :=
  [(chars "b", RSeq [RScalar (SStr (chars "plain")); RScalar (SStr (chars "$.y")); RNull]);
   (chars "a", RMap [(chars "c", RScalar (SStr (chars "func:list($.x, len(list($.x)))")))])].
Example C22_nonvacuous : proper_maps (RMap ex_template) /\
  fst (ex_render ex_template (VObj [(chars "x", VArr [VBool true])]) 0) =
    Ok (VObj [(chars "a", VObj [(chars "c", VArr [VArr [VBool true]; VNum (NInt 1)])]); (chars "b", VArr [VStr (chars "plain"); VNull; VNull])]) /\
  no_random ascii_classes dot_paths (fun _ => None) (RMap ex_template) /\
  fst (ex_render [(chars "a", RScalar (SStr (chars "func:lisst(1)")))] VNull 0) = Err (FunctionNotFound (chars "lisst")).
Proof.
  split; [repeat constructor; cbn; intuition discriminate|]. split; [vm_compute; reflexivity|]. split; [|vm_compute; reflexivity].
  intros name args (u & c & L & E & W) R.
  assert (chars "func:" ++ u = chars "func:list($.x, len(list($.x)))") as Eu.
  { inversion L as [| |? key x Hin L1]; subst. cbn in Hin. destruct Hin as [H|[H|[]]]; injection H as <- <-.
    - inversion L1 as [|? y Hy L2|]; subst. cbn in Hy. destruct Hy as [<-|[<-|[<-|[]]]]; inversion L2.
    - inversion L1 as [| |? key x Hin L2]; subst. destruct Hin as [H|[]]. injection H as <- <-. now inversion L2. }
  apply (app_inv_head (chars "func:") u (chars "list($.x, len(list($.x)))")) in Eu. subst u. vm_compute in E. injection E as <-.
  repeat match goal with
  | H : within _ (ECall _) |- _ => inversion H; clear H; subst
  | H : within _ (EPath _) |- _ => inversion H; clear H; subst
  | H : In _ (_ :: _) |- _ => destruct H as [<-|H]
  | H : In _ [] |- _ => destruct H
  end; destruct R as [R|[R|R]]; discriminate R.
Qed.
Example C26_nonvacuous : keys_sorted [(chars "a", VNull); (chars "b", VBool true)] /\ dot_paths (chars "$.b") = Some (JChain [JRoot; JField (chars "b")]) /\
  inject dot_paths (VObj [(chars "a", VNull); (chars "b", VBool true)]) (chars "$.b") (VNum (NInt 3)) = Ok (VObj [(chars "a", VNull); (chars "b", VNum (NInt 3))]) /\
  (forall f m, dot_find (JChain [JRoot; JField f]) (VObj m) = match get f m with Some v => VArr [v] | None => VNull end) /\
  inject dot_paths (VObj [(chars "a", VNull)]) (chars "$") VNull = Err JsonPathError /\
  dot_paths (chars ".a.b") = Some (JChain [JField (chars "a"); JField (chars "b")]).
Proof. split; [cbn; intuition; match goal with H : _ = _ |- _ => injection H as <- <- end; reflexivity|]. repeat split. Qed.
Example C69_nonvacuous : crash (chars "chunk_list") [VArr [VNull]; VNum (NInt 0)] /\
  parse_func ascii_classes jpath dot_paths spec_float (fun _ => None) (chars "chunk_list($.x,0)") = inl (Call (chars "chunk_list") [EPath (JChain [JRoot; JField (chars "x")]); EInt 0]) /\
  fst (ex_render [(chars "r", RScalar (SStr (chars "func:chunk_list($.x,0)")))] (VObj [(chars "x", VArr [VNull])]) 0) = Panic.
Proof. split; [constructor; intros (z & E & H); injection E as <-; lia|]. split; vm_compute; reflexivity. Qed.
Print Assumptions C22_render.
Print Assumptions C22_render_exact.
Print Assumptions C22_error.
Print Assumptions C22_first_error_sequence.
Print Assumptions C22_first_error.
Print Assumptions C22_order.
Print Assumptions C26_inject.
Print Assumptions C26_inject_exact.
Print Assumptions C26_fails.
Print Assumptions C26_other_path_refuted.
Print Assumptions C26_extract.
Print Assumptions C22_selection_ambiguous_refuted.
Print Assumptions C69_functions.
Print Assumptions C69_render.
Print Assumptions C69_refuted.
Print Assumptions C69_float_refuted.
