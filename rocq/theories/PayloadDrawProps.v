(** C137: every call of a random function in a template has a draw of its own. *)
From Verif Require Import Base Json Chars Value Bytes ScannerModel SubstModel ResolveModel TemplateParserModel TemplateFuncModel PayloadModel PayloadSpec PayloadProofs PayloadProps PayloadDrawSpec.
Local Open Scope list_scope.

Section Params.
Variable k : classes.
Variable parse_path : text -> option jpath.
Variable parse_float : text -> option spec_float.
Variable find : jpath -> value -> value.
Variable show_num : num -> text.
Variable json_read : text -> option value.
Variable json_write : value -> text.
Variable sha256 sha384 sha512 : list N -> text.
Variable draw_range : nat -> Z -> Z -> Z.
Variable draw_uuid draw_nanoid : nat -> text.
Notation documented := (documented show_num json_read json_write sha256 sha384 sha512 draw_range draw_uuid draw_nanoid).
Notation apply_func := (apply_func show_num json_read json_write sha256 sha384 sha512 draw_range draw_uuid draw_nanoid).
Notation render := (render k parse_path parse_float find show_num json_read json_write sha256 sha384 sha512 draw_range draw_uuid draw_nanoid).
Notation parse_func := (parse_func k jpath parse_path spec_float parse_float).

Lemma random_dec name : random_name name \/ ~ random_name name.
Proof.
  unfold random_name. destruct (text_eq_dec name (chars "math_rand")), (text_eq_dec name (chars "uuid")), (text_eq_dec name (chars "nanoid")); tauto.
Qed.
Lemma documented_random name f args n : documented name f -> random_name name -> snd (apply_func name args n) = S n.
Proof. intros [] [R|[R|R]]; first [reflexivity|discriminate R]. Qed.
Lemma documented_other name f args n : documented name f -> ~ random_name name -> snd (apply_func name args n) = n.
Proof. intros [] R; first [reflexivity|elim R; unfold random_name; tauto]. Qed.
Lemma lift_ok r v : lift_ferr r = Ok v <-> r = Ok v.
Proof. destruct r; cbn; split; intros H; try discriminate; congruence. Qed.

Section Input.
Variable input : value.
Notation compute_arg := (compute_arg find show_num json_read json_write sha256 sha384 sha512 draw_range draw_uuid draw_nanoid input).
Notation compute_args := (compute_args find show_num json_read json_write sha256 sha384 sha512 draw_range draw_uuid draw_nanoid input).
Notation render_node := (render_node k parse_path parse_float find show_num json_read json_write sha256 sha384 sha512 draw_range draw_uuid draw_nanoid input).
Notation render_scalar := (render_scalar k parse_path parse_float find show_num json_read json_write sha256 sha384 sha512 draw_range draw_uuid draw_nanoid input).
Notation render_list := (render_list k parse_path parse_float find show_num json_read json_write sha256 sha384 sha512 draw_range draw_uuid draw_nanoid input).
Notation render_entries := (render_entries k parse_path parse_float find show_num json_read json_write sha256 sha384 sha512 draw_range draw_uuid draw_nanoid input).
Notation drawn := (drawn find show_num json_read json_write sha256 sha384 sha512 draw_range draw_uuid draw_nanoid input).
Notation all_drawn := (all_drawn find show_num json_read json_write sha256 sha384 sha512 draw_range draw_uuid draw_nanoid input).
Notation filled := (filled k parse_path parse_float find show_num json_read json_write sha256 sha384 sha512 draw_range draw_uuid draw_nanoid input).
Notation all_filled := (all_filled k parse_path parse_float find show_num json_read json_write sha256 sha384 sha512 draw_range draw_uuid draw_nanoid input).

Lemma apply_exact name vs n v n' : apply_func name vs n = (Ok v, n') <->
  exists f, documented name f /\ f n vs = Ok v /\ ((random_name name /\ n' = S n) \/ (~ random_name name /\ n' = n)).
Proof.
  split.
  - intros E. destruct (apply_cases show_num json_read json_write sha256 sha384 sha512 draw_range draw_uuid draw_nanoid name vs n) as [(f & D & X)|[X _]]; rewrite E in X; cbn [fst] in X; [|discriminate].
    exists f. split; [exact D|]. split; [apply lift_ok; now symmetry|].
    destruct (random_dec name) as [R|R]; [left|right]; (split; [exact R|]).
    + pose proof (documented_random name f vs n D R) as S. now rewrite E in S.
    + pose proof (documented_other name f vs n D R) as S. now rewrite E in S.
  - intros (f & D & X & R). rewrite (surjective_pairing (apply_func name vs n)).
    rewrite (apply_documented show_num json_read json_write sha256 sha384 sha512 draw_range draw_uuid draw_nanoid name f vs n D), X. cbn [lift_ferr]. f_equal.
    destruct R as [[R ->]|[R ->]]; [exact (documented_random name f vs n D R)|exact (documented_other name f vs n D R)].
Qed.

Hypothesis find_shape : finds find.

Lemma args_exact args : Forall (fun e => forall n v n', compute_arg e n = (Ok v, n') <-> drawn n e v n') args ->
  forall n vs n', compute_args args n = (Ok vs, n') <-> all_drawn n args vs n'.
Proof.
  intros H. induction H as [|a args Ha Hargs IH]; intros n vs n'; cbn [PayloadProofs.compute_args].
  - split; [intros [= <- <-]; constructor|intros D; inversion D; reflexivity].
  - split.
    + destruct (compute_arg a n) as [[v|x|] n1] eqn:E; cbn [bind]; try discriminate. apply Ha in E.
      destruct (compute_args args n1) as [[ws|x|] n2] eqn:E2; cbn [bind]; try discriminate. apply IH in E2.
      intros [= <- <-]. econstructor; eauto.
    + intros D. inversion D as [|? ? v n1 ? ws ? D1 D2]; subst. apply Ha in D1. rewrite D1. cbn [bind]. apply IH in D2. rewrite D2. reflexivity.
Qed.
Lemma arg_exact e : forall n v n', compute_arg e n = (Ok v, n') <-> drawn n e v n'.
Proof.
  induction e as [e H|name args IH] using expr_nested; intros n v n'.
  - destruct e; cbn [PayloadModel.compute_arg]; try (split; [intros [= <- <-]; constructor|intros D; inversion D; reflexivity]).
    + split.
      * destruct (from_f64 f) as [x|] eqn:E; [|discriminate]. apply from_f64_finite in E. destruct E as [E ->]. intros [= <- <-]. now constructor.
      * intros D. inversion D; subst. now rewrite (proj2 (from_f64_finite f (NFloat f))).
    + split.
      * intros [= <- <-]. constructor. now apply (extract_selected find find_shape).
      * intros D. inversion D as [| | | | |? ? ? S| |]; subst. apply (extract_selected find find_shape) in S. now rewrite S.
    + now elim (H c).
  - rewrite (compute_call_eq find show_num json_read json_write sha256 sha384 sha512 draw_range draw_uuid draw_nanoid input). split.
    + destruct (compute_args args n) as [[vs|x|] n1] eqn:E; cbn [bind]; try discriminate. apply (args_exact args IH) in E.
      intros A. apply apply_exact in A. destruct A as (f & D & X & [[R ->]|[R ->]]); [eapply D_random|eapply D_other]; eauto.
    + intros D. inversion D as [| | | | | |? ? ? vs n1 f ? A D1 R X|? ? ? vs n1 f ? A D1 R X]; subst; apply (args_exact args IH) in A; rewrite A; cbn [bind]; apply apply_exact; exists f; auto.
Qed.

Lemma list_exact l : Forall (fun t => forall n v n', render_node t n = (Ok v, n') <-> filled n t v n') l ->
  forall n vs n', render_list l n = (Ok vs, n') <-> all_filled n l vs n'.
Proof.
  intros H. induction H as [|a l Ha Hl IH]; intros n vs n'; cbn [PayloadProofs.render_list].
  - split; [intros [= <- <-]; constructor|intros D; inversion D; reflexivity].
  - split.
    + destruct (render_node a n) as [[v|x|] n1] eqn:E; cbn [bind]; try discriminate. apply Ha in E.
      destruct (render_list l n1) as [[ws|x|] n2] eqn:E2; cbn [bind]; try discriminate. apply IH in E2.
      intros [= <- <-]. econstructor; eauto.
    + intros D. inversion D as [|? ? v n1 ? ws ? D1 D2]; subst. apply Ha in D1. rewrite D1. cbn [bind]. apply IH in D2. rewrite D2. reflexivity.
Qed.
Lemma entries_exact m : Forall (fun kx => forall n v n', render_node (snd kx) n = (Ok v, n') <-> filled n (snd kx) v n') m ->
  forall acc n o n', render_entries m acc n = (Ok o, n') <-> exists vs, all_filled n (map snd m) vs n' /\ o = set_all (combine (map fst m) vs) acc.
Proof.
  intros H. induction H as [|[key a] m Ha Hm IH]; intros acc n o n'; cbn [PayloadProofs.render_entries map fst snd].
  - split; [intros [= <- <-]; exists []; split; [constructor|reflexivity]|intros (vs & D & ->); inversion D; reflexivity].
  - cbn [snd] in Ha. split.
    + destruct (render_node a n) as [[v|x|] n1] eqn:E; cbn [bind]; try discriminate. apply Ha in E. intros R. apply IH in R. destruct R as (vs & D & ->).
      exists (v :: vs). split; [econstructor; eauto|reflexivity].
    + intros (vs & D & ->). inversion D as [|? ? v n1 ? ws ? D1 D2]; subst. apply Ha in D1. rewrite D1. cbn [bind]. apply IH. exists ws. auto.
Qed.
Lemma get_set_all kvs : NoDup (map fst kvs) -> forall (key : text) (acc : list (text * value)),
  get key (set_all kvs acc) = match get key kvs with Some v => Some v | None => get key acc end.
Proof.
  induction kvs as [|[k' v] kvs IH]; intros Nk key acc; [reflexivity|]. cbn [set_all get]. cbn in Nk. inversion Nk; subst. rewrite IH by assumption. destruct (text_eqb key k') eqn:E.
  - apply text_eqb_eq in E. subst k'. destruct (get key kvs) as [w|] eqn:Gk; [elim H1; apply get_In in Gk; now apply (in_map fst) in Gk|]. apply get_set_eq.
  - destruct (get key kvs); [reflexivity|]. apply get_set_neq. intros X. subst. now rewrite text_eqb_refl in E.
Qed.
Lemma all_filled_length n l vs n' : all_filled n l vs n' -> length l = length vs.
Proof. revert n vs. induction l as [|x l IH]; intros n vs H; inversion H; subst; [reflexivity|]. cbn. f_equal. eauto. Qed.
Lemma combine_keys (l : list text) (vs : list value) : length l = length vs -> map fst (combine l vs) = l.
Proof. revert vs. induction l as [|x l IH]; intros [|v vs] E; try discriminate; [reflexivity|]. cbn. f_equal. apply IH. now injection E. Qed.

Lemma scalar_exact s n v n' : render_scalar s n = (Ok v, n') <-> filled n (RScalar s) v n'.
Proof.
  destruct s as [t|z|f|b]; cbn [PayloadModel.render_scalar].
  - destruct (starts_with (chars "func:") t) eqn:E1.
    + apply starts_with_iff in E1. destruct E1 as [u ->]. rewrite skipn_func. split.
      * destruct (parse_func u) as [c|x] eqn:E; [|discriminate]. intros C. change (compute_arg (ECall c) n = (Ok v, n')) in C. apply arg_exact in C. eapply F_call; eauto.
      * intros D. inversion D as [? t N1 N2|? u' p w E S X|? u' c w ? E A X| | | | | |]; subst.
        -- now elim (N1 u).
        -- match goal with E : parse_func u = inl c |- _ => rewrite E end. change (compute_arg (ECall c) n = (Ok v, n')). now apply arg_exact.
    + destruct (starts_with (chars "$") t) eqn:E2.
      * apply starts_with_iff in E2. destruct E2 as [u ->]. split.
        -- destruct (parse_path (chars "$" ++ u)) as [p|] eqn:E; [|discriminate]. intros [= <- <-]. eapply F_path; [exact E|]. now apply (extract_selected find find_shape).
        -- intros D. inversion D as [? t N1 N2|? u' p w E S X|? u' c w ? E A X| | | | | |]; subst.
           ++ now elim (N2 u).
           ++ change (parse_path (chars "$" ++ u) = Some p) in E. rewrite E. apply (extract_selected find find_shape) in S. now rewrite S.
      * split.
        -- intros [= <- <-]. constructor; intros u ->; [now rewrite call_prefix in E1|]. assert (starts_with (chars "$") (chars "$" ++ u) = true) by (apply starts_with_iff; eauto). congruence.
        -- intros D. inversion D as [? t' N1 N2|? u' p w E S X|? u' c w ? E A X| | | | | |]; subst; [reflexivity| |].
           ++ exfalso. assert (starts_with (chars "$") (chars "$" ++ u') = true) by (apply starts_with_iff; eauto). cbn in *. congruence.
           ++ exfalso. pose proof (call_prefix u'). cbn in *. congruence.
  - split; [intros [= <- <-]; constructor|intros D; inversion D; reflexivity].
  - split.
    + destruct (from_f64 f) as [x|] eqn:E; [|discriminate]. apply from_f64_finite in E. destruct E as [E ->]. intros [= <- <-]. now constructor.
    + intros D. inversion D; subst. now rewrite (proj2 (from_f64_finite f (NFloat f))).
  - split; [intros [= <- <-]; constructor|intros D; inversion D; reflexivity].
Qed.
Lemma node_exact t : proper_maps t -> forall n v n', render_node t n = (Ok v, n') <-> filled n t v n'.
Proof.
  induction t as [s| |l IH|m IH] using rnode_nested; intros Hp n v n'.
  - apply scalar_exact.
  - cbn. split; [intros [= <- <-]; constructor|intros D; inversion D; reflexivity].
  - rewrite (render_seq_eq k parse_path parse_float find show_num json_read json_write sha256 sha384 sha512 draw_range draw_uuid draw_nanoid input).
    inversion Hp as [| |? Hl|]; subst. assert (F : Forall (fun t => forall n v n', render_node t n = (Ok v, n') <-> filled n t v n') l).
    { rewrite Forall_forall in *. intros x Hx. apply IH; auto. }
    split.
    + destruct (render_list l n) as [[vs|x|] n1] eqn:E; cbn [bind]; try discriminate. intros [= <- <-]. constructor. now apply (list_exact l F).
    + intros D. inversion D as [| | | | | | |? ? vs ? A|]; subst. apply (list_exact l F) in A. now rewrite A.
  - rewrite (render_map_eq k parse_path parse_float find show_num json_read json_write sha256 sha384 sha512 draw_range draw_uuid draw_nanoid input).
    inversion Hp as [| | |? Nd Hm]; subst. assert (F : Forall (fun kx => forall n v n', render_node (snd kx) n = (Ok v, n') <-> filled n (snd kx) v n') m).
    { rewrite Forall_forall in *. intros x Hx. apply IH; auto. }
    assert (K : forall vs n1, all_filled n (map snd m) vs n1 -> map fst (combine (map fst m) vs) = map fst m).
    { intros vs n1 A. apply combine_keys. apply all_filled_length in A. rewrite map_length in *. exact A. }
    split.
    + destruct (render_entries m [] n) as [[o|x|] n1] eqn:E; cbn [bind]; try discriminate. intros [= <- <-].
      apply (entries_exact m F) in E. destruct E as (vs & A & ->). apply (F_map _ _ _ _ _ _ _ _ _ _ _ _ _ _ n m vs n1); [exact A|now apply set_all_sorted|].
      intros key. rewrite get_set_all by (rewrite (K vs n1 A); exact Nd). now destruct (get key _).
    + intros D. inversion D as [| | | | | | | |? ? vs ? o A So G]; subst.
      rewrite (proj2 (entries_exact m F [] n (set_all (combine (map fst m) vs) []) n')) by eauto. cbn [bind]. do 3 f_equal.
      apply sorted_ext; [now apply set_all_sorted|exact So|]. intros key. rewrite G, get_set_all by (rewrite (K vs n' A); exact Nd). now destruct (get key _).
Qed.
End Input.

(** C137: rendering gives exactly the document in which the parts are filled in order and every call
    of a random function has the draw after all earlier ones. *)
Theorem C137_draws : finds find -> forall template input n v n', proper_maps (RMap template) ->
  (render template input n = (Ok v, n') <->
   filled k parse_path parse_float find show_num json_read json_write sha256 sha384 sha512 draw_range draw_uuid draw_nanoid input n (RMap template) v n').
Proof. intros Hf template input n v n' Hp. exact (node_exact input Hf (RMap template) Hp n v n'). Qed.
End Params.

(** Two identifiers and a number between them *)
Definition ex_ids : list (text * rnode spec_float) :=
  [(chars "a", RScalar (SStr (chars "func:uuid()"))); (chars "b", RSeq [RScalar (SInt 5); RScalar (SStr (chars "func:uuid()"))])].
Definition ex_uuid (n : nat) : text := repeat 48%N n.
Example C137_nonvacuous : proper_maps (RMap ex_ids) /\
  PayloadModel.render ascii_classes dot_paths (fun _ => None) dot_find (fun _ => []) (fun _ => None) (fun _ => []) (fun _ => []) (fun _ => []) (fun _ => []) (fun _ lo _ => lo) ex_uuid (fun _ => []) ex_ids VNull 1 =
    (Ok (VObj [(chars "a", VStr (ex_uuid 1)); (chars "b", VArr [VNum (NInt 5); VStr (ex_uuid 2)])]), 3).
Proof.
  split; [|vm_compute; reflexivity].
  constructor; [repeat constructor; cbn; intuition discriminate|]. repeat constructor.
Qed.

Print Assumptions C137_draws.
