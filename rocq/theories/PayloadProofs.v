(** Lemmas about payload templates *)
From Verif Require Import Base Json Chars Value Bytes ScannerModel ResolveModel TemplateParserModel TemplateFuncModel PayloadModel PayloadSpec.
Local Open Scope list_scope.

Section ExprInd.
  Variable P : expr jpath spec_float -> Prop.
  Hypothesis Hbase : forall e, (forall c, e <> ECall c) -> P e.
  Hypothesis Hcall : forall name args, Forall P args -> P (ECall (Call name args)).
  Fixpoint expr_nested (e : expr jpath spec_float) : P e :=
    match e with
    | ECall (Call name args) => Hcall name args ((fix go l := match l return Forall P l with
        | [] => Forall_nil _ | x :: r => Forall_cons _ (expr_nested x) (go r) end) args)
    | EStr t => Hbase (EStr t) (fun c H => ltac:(discriminate H))
    | EInt t => Hbase (EInt t) (fun c H => ltac:(discriminate H))
    | EFloat t => Hbase (EFloat t) (fun c H => ltac:(discriminate H))
    | EBool t => Hbase (EBool t) (fun c H => ltac:(discriminate H))
    | ENull => Hbase ENull (fun c H => ltac:(discriminate H))
    | EPath t => Hbase (EPath t) (fun c H => ltac:(discriminate H))
    end.
End ExprInd.
Section NodeInd.
  Variable P : rnode spec_float -> Prop.
  Hypothesis Hs : forall s, P (RScalar s).
  Hypothesis Hn : P RNull.
  Hypothesis Hl : forall l, Forall P l -> P (RSeq l).
  Hypothesis Hm : forall m, Forall (fun kx => P (snd kx)) m -> P (RMap m).
  Fixpoint rnode_nested (t : rnode spec_float) : P t :=
    match t with
    | RScalar s => Hs s
    | RNull => Hn
    | RSeq l => Hl l ((fix go l := match l return Forall P l with
        | [] => Forall_nil _ | x :: r => Forall_cons _ (rnode_nested x) (go r) end) l)
    | RMap m => Hm m ((fix go m := match m return Forall (fun kx => P (snd kx)) m with
        | [] => Forall_nil _ | x :: r => Forall_cons _ (rnode_nested (snd x)) (go r) end) m)
    end.
End NodeInd.

Lemma from_f64_finite f x : from_f64 f = Some x <-> finite f /\ x = NFloat f.
Proof. destruct f; cbn; (split; [intros H; try discriminate H; injection H as <-; auto|intros [H ->]; try contradiction; reflexivity]). Qed.
Lemma from_f64_none f : from_f64 f = None <-> ~ finite f.
Proof. destruct f; cbn; split; intros H; try discriminate; try tauto; reflexivity. Qed.
Definition starts_with_iff := starts_with_spec.
Lemma root_field_iff p f : root_field p = Some f <-> names_field p f.
Proof.
  split.
  - destruct p as [| |l|]; try discriminate. cbn. destruct l as [|a [|b [|c l]]]; cbn; try discriminate.
    + destruct a; try discriminate. intros H. injection H as ->. constructor.
    + destruct a; try discriminate; [|intros H; injection H as ->; constructor]. destruct b; try discriminate. intros H. injection H as ->. constructor.
  - intros []; reflexivity.
Qed.

Section Params.
Variable k : classes.
Variable parse_path : text -> option jpath.
Variable parse_float : text -> option spec_float.
Variable find : jpath -> value -> value.
Hypothesis find_shape : forall p v, find p v = VNull \/ exists l, find p v = VArr l.
Variable show_num : num -> text.
Variable json_read : text -> option value.
Variable json_write : value -> text.
Variable sha256 sha384 sha512 : list N -> text.
Variable draw_range : nat -> Z -> Z -> Z.
Variable draw_uuid draw_nanoid : nat -> text.
Notation documented := (documented show_num json_read json_write sha256 sha384 sha512 draw_range draw_uuid draw_nanoid).
Notation apply_func := (apply_func show_num json_read json_write sha256 sha384 sha512 draw_range draw_uuid draw_nanoid).

Lemma apply_documented name f args n : documented name f -> fst (apply_func name args n) = lift_ferr (f n args).
Proof. intros []; reflexivity. Qed.
Lemma documented_fun name f g : documented name f -> documented name g -> f = g.
Proof. intros [] H; inversion H; reflexivity. Qed.
Lemma apply_cases name args n : (exists f, documented name f /\ fst (apply_func name args n) = lift_ferr (f n args)) \/
  (fst (apply_func name args n) = Err (FunctionNotFound name) /\ forall f, ~ documented name f).
Proof.
  unfold apply_func.
  repeat match goal with |- context [text_eqb name (chars ?s)] =>
    let E := fresh "E" in destruct (text_eqb name (chars s)) eqn:E; [left; apply text_eqb_eq in E; subst name; eexists; split; [econstructor|reflexivity]|] end.
  right. split; [reflexivity|]. intros f D. destruct D; try (match goal with H : text_eqb ?a ?a = false |- _ => rewrite text_eqb_refl in H; discriminate H end).
Qed.

Variable input : value.
Notation selected := (selected find input).
Notation arg_value := (arg_value find show_num json_read json_write sha256 sha384 sha512 draw_range draw_uuid draw_nanoid input).
Notation compute_arg := (compute_arg find show_num json_read json_write sha256 sha384 sha512 draw_range draw_uuid draw_nanoid input).
Notation compute_call := (compute_call find show_num json_read json_write sha256 sha384 sha512 draw_range draw_uuid draw_nanoid input).
Notation render_scalar := (render_scalar k parse_path parse_float find show_num json_read json_write sha256 sha384 sha512 draw_range draw_uuid draw_nanoid input).
Notation render_node := (render_node k parse_path parse_float find show_num json_read json_write sha256 sha384 sha512 draw_range draw_uuid draw_nanoid input).
Notation renders := (renders k parse_path parse_float find show_num json_read json_write sha256 sha384 sha512 draw_range draw_uuid draw_nanoid input).
Notation parse_func := (parse_func k jpath parse_path spec_float parse_float).
Notation evaluated := (evaluated k parse_path parse_float).
Notation goes_wrong := (goes_wrong k parse_path parse_float find show_num json_read json_write sha256 sha384 sha512 draw_range draw_uuid draw_nanoid input).
Notation crashes := (crashes k parse_path parse_float find show_num json_read json_write sha256 sha384 sha512 draw_range draw_uuid draw_nanoid input).

Lemma extract_selected p v : extract_value find p input = v <-> selected p v.
Proof.
  unfold extract_value. split.
  - intros <-. destruct (find_shape p input) as [E|[l E]]; rewrite E; [now constructor|]. destruct l as [|x [|y l]]; [apply Sel_many|apply Sel_one|apply Sel_many]; auto; discriminate.
  - intros [E|x E|l E H]; rewrite E; try reflexivity. destruct l as [|x [|y l]]; try reflexivity. now elim H.
Qed.

Definition compute_args : list (expr jpath spec_float) -> nat -> outcome perr (list value) * nat :=
  fix go l n := match l with
  | [] => (Ok [], n)
  | a :: l' => bind (compute_arg a n) (fun v n1 => bind (go l' n1) (fun vs n2 => (Ok (v :: vs), n2)))
  end.
Lemma compute_call_eq name args n : compute_arg (ECall (Call name args)) n = bind (compute_args args n) (apply_func name).
Proof. reflexivity. Qed.

(** Everything that can come out of evaluating an expression *)
Definition wrong_expr (e : expr jpath spec_float) (x : perr) : Prop :=
  (exists name args, x = FunctionNotFound name /\ within (ECall (Call name args)) e /\ forall f, ~ documented name f) \/
  (exists y name args vs f n, x = FunctionCallFailed y /\ within (ECall (Call name args)) e /\ Forall2 arg_value args vs /\ documented name f /\ f n vs = Err y).
Definition crash_expr (e : expr jpath spec_float) : Prop :=
  (exists f, within (EFloat f) e /\ ~ finite f) \/
  (exists name args vs f n, within (ECall (Call name args)) e /\ Forall2 arg_value args vs /\ documented name f /\ f n vs = Panic).
Definition outcome_expr (e : expr jpath spec_float) (r : outcome perr value) : Prop :=
  match r with Ok v => arg_value e v | Err x => wrong_expr e x | Panic => crash_expr e end.
Lemma wrong_sub e e' x : (forall y, within y e' -> within y e) -> wrong_expr e' x -> wrong_expr e x.
Proof. intros H [(name & args & -> & W & R)|(y & name & args & vs & f & n & -> & W & R)]; [left; exists name, args|right; exists y, name, args, vs, f, n]; auto. Qed.
Lemma crash_sub e e' : (forall y, within y e' -> within y e) -> crash_expr e' -> crash_expr e.
Proof. intros H [(f & W & R)|(name & args & vs & f & n & W & R)]; [left; exists f|right; exists name, args, vs, f, n]; auto. Qed.

Lemma compute_args_ok args n : Forall (fun e => forall n, outcome_expr e (fst (compute_arg e n))) args ->
  match fst (compute_args args n) with
  | Ok vs => Forall2 arg_value args vs
  | Err x => exists a, In a args /\ wrong_expr a x
  | Panic => exists a, In a args /\ crash_expr a
  end.
Proof.
  intros H. revert n. induction H as [|a args Ha Hargs IH]; intros n; [constructor|]. cbn [compute_args]. specialize (Ha n). destruct (compute_arg a n) as [[v|x|] n1]; cbn [fst bind outcome_expr] in *.
  - specialize (IH n1). destruct (compute_args args n1) as [[vs|x|] n2]; cbn [fst bind] in *; [constructor; auto| |]; destruct IH as (b & Hb & W); exists b; split; auto; now right.
  - exists a. split; [now left|exact Ha].
  - exists a. split; [now left|exact Ha].
Qed.
Lemma compute_arg_ok e : forall n, outcome_expr e (fst (compute_arg e n)).
Proof.
  induction e as [e H|name args IH] using expr_nested; intros n.
  - destruct e; cbn; try now constructor.
    + destruct (from_f64 f) as [x|] eqn:E; [apply from_f64_finite in E; destruct E as [E ->]; now constructor|]. left. exists f. split; [constructor|now apply from_f64_none].
    + constructor. now apply extract_selected.
    + now elim (H c).
  - rewrite compute_call_eq. pose proof (compute_args_ok args n IH) as A. destruct (compute_args args n) as [[vs|x|] n1]; cbn [fst bind] in *.
    + destruct (apply_cases name vs n1) as [(f & D & E)|[E D]]; rewrite E; clear E.
      * destruct (f n1 vs) as [v|y|] eqn:R; cbn [lift_ferr outcome_expr].
        -- econstructor; eauto.
        -- right. exists y, name, args, vs, f, n1. repeat split; auto. constructor.
        -- right. exists name, args, vs, f, n1. repeat split; auto. constructor.
      * left. exists name, args. repeat split; auto. constructor.
    + destruct A as (a & Ha & W). cbn. apply (wrong_sub _ a); [|exact W]. intros y Hy. econstructor; eauto.
    + destruct A as (a & Ha & W). cbn. apply (crash_sub _ a); [|exact W]. intros y Hy. econstructor; eauto.
Qed.
(** Without random functions an expression has one value, whatever the draws. *)
Lemma documented_steady name f n n' args : documented name f -> ~ random_name name -> f n args = f n' args.
Proof. intros [] H; try reflexivity; elim H; unfold random_name; auto. Qed.
Lemma compute_complete e : (forall name args, within (ECall (Call name args)) e -> ~ random_name name) ->
  forall v n, arg_value e v -> fst (compute_arg e n) = Ok v.
Proof.
  induction e as [e H|name args IH] using expr_nested; intros Hr v n Hv.
  - destruct Hv; cbn; try reflexivity.
    + now rewrite (proj2 (from_f64_finite f (NFloat f))).
    + now rewrite (proj2 (extract_selected p v)).
    + now elim (H (Call name args)).
  - inversion Hv as [| | | | | |? ? vs f n0 ? Hvs D R]; subst. rewrite compute_call_eq.
    assert (A : forall n, fst (compute_args args n) = Ok vs).
    { assert (Hr' : forall a, In a args -> forall name0 args0, within (ECall (Call name0 args0)) a -> ~ random_name name0).
      { intros a Ha nm ar W. apply (Hr nm ar). econstructor; eauto. }
      clear - IH Hvs Hr'. induction Hvs as [|a w args vs Ha Hvs IHv]; intros n; [reflexivity|]. inversion IH as [|? ? IHa IHargs]; subst. cbn [compute_args].
      pose proof (IHa (Hr' a (or_introl eq_refl)) w n Ha) as E. destruct (compute_arg a n) as [r n1]. cbn [fst] in E. subst r. cbn [bind].
      specialize (IHv IHargs (fun b Hb => Hr' b (or_intror Hb)) n1). destruct (compute_args args n1) as [r n2]. cbn [fst] in IHv. subst r. reflexivity. }
    specialize (A n). destruct (compute_args args n) as [r n1]. cbn [fst] in A. subst r. cbn [bind]. rewrite (apply_documented name f vs n1 D).
    rewrite (documented_steady name f n1 n0 vs D) by (apply (Hr name args); constructor). now rewrite R.
Qed.

Definition outcome_node (t : rnode spec_float) (r : outcome perr value) : Prop :=
  match r with Ok v => renders t v | Err x => goes_wrong t x | Panic => crashes t end.
Lemma skipn_func u : skipn 5 (chars "func:" ++ u) = u.
Proof. reflexivity. Qed.
Lemma call_prefix u : starts_with (chars "func:") (chars "func:" ++ u) = true.
Proof. apply starts_with_iff. eauto. Qed.
Lemma wrong_leaf t u c x : leaf (SStr (chars "func:" ++ u)) t -> parse_func u = inl c -> wrong_expr (ECall c) x -> goes_wrong t x.
Proof.
  intros L E [(name & args & -> & W & R)|(y & name & args & vs & f & n & -> & W & R)]; cbn.
  - exists args. split; [exists u, c; auto|exact R].
  - exists name, args, vs, f, n. split; [exists u, c; auto|exact R].
Qed.
Lemma crash_leaf t u c : leaf (SStr (chars "func:" ++ u)) t -> parse_func u = inl c -> crash_expr (ECall c) -> crashes t.
Proof.
  intros L E [(f & W & R)|(name & args & vs & f & n & W & R)]; right; [left|right].
  - exists f. split; [exists u, c; auto|exact R].
  - exists name, args, vs, f, n. split; [exists u, c; auto|exact R].
Qed.
Lemma render_scalar_ok s n : outcome_node (RScalar s) (fst (render_scalar s n)).
Proof.
  destruct s as [t|z|f|b]; cbn [render_scalar]; try (cbn; constructor).
  - destruct (starts_with (chars "func:") t) eqn:E1.
    + apply starts_with_iff in E1. destruct E1 as [u ->]. rewrite skipn_func. destruct (parse_func u) as [c|x] eqn:E.
      * pose proof (compute_arg_ok (ECall c) n) as A. change (compute_arg (ECall c) n) with (compute_call c n) in A. destruct (fst (compute_call c n)) as [v|x|]; cbn [outcome_expr outcome_node] in *.
        -- eapply R_call; eauto.
        -- exact (wrong_leaf _ u c x (L_here _) E A).
        -- exact (crash_leaf _ u c (L_here _) E A).
      * cbn. exists u, x. split; [constructor|exact E].
    + destruct (starts_with (chars "$") t) eqn:E2.
      * apply starts_with_iff in E2. destruct E2 as [u ->]. destruct (parse_path (chars "$" ++ u)) as [p|] eqn:E.
        -- apply R_path with p; [exact E|now apply extract_selected].
        -- cbn [fst outcome_node goes_wrong]. exists u. split; [constructor|exact E].
      * constructor; intros u ->; [now rewrite call_prefix in E1|]. assert (starts_with (chars "$") (chars "$" ++ u) = true) by (apply starts_with_iff; eauto). congruence.
  - destruct (from_f64 f) as [x|] eqn:E; cbn; [apply from_f64_finite in E; destruct E as [E ->]; now constructor|].
    left. exists f. split; [constructor|now apply from_f64_none].
Qed.

Definition render_list : list (rnode spec_float) -> nat -> outcome perr (list value) * nat :=
  fix go l n := match l with
  | [] => (Ok [], n)
  | x :: l' => bind (render_node x n) (fun v n1 => bind (go l' n1) (fun vs n2 => (Ok (v :: vs), n2)))
  end.
Definition render_entries : list (text * rnode spec_float) -> list (text * value) -> nat -> outcome perr (list (text * value)) * nat :=
  fix go m rendered n := match m with
  | [] => (Ok rendered, n)
  | (key, x) :: m' => bind (render_node x n) (fun v n1 => go m' (set key v rendered) n1)
  end.
Lemma render_seq_eq l n : render_node (RSeq l) n = bind (render_list l n) (fun vs n1 => (Ok (VArr vs), n1)).
Proof. reflexivity. Qed.
Lemma render_map_eq m n : render_node (RMap m) n = bind (render_entries m [] n) (fun o n1 => (Ok (VObj o), n1)).
Proof. reflexivity. Qed.

Lemma evaluated_sub t t' e : (forall s, leaf s t' -> leaf s t) -> evaluated e t' -> evaluated e t.
Proof. intros H (u & c & L & R). exists u, c. auto. Qed.
Lemma wrong_node_sub t t' x : (forall s, leaf s t' -> leaf s t) -> goes_wrong t' x -> goes_wrong t x.
Proof.
  intros H. pose proof (fun e => evaluated_sub t t' e H) as He. destruct x; cbn; intros W.
  - destruct W as (u & L & R). exists u. auto.
  - destruct W as (args & L & R). exists args. auto.
  - destruct W as (u & y & L & R). exists u, y. auto.
  - destruct W as (nm & args & vs & f & n & L & R). exists nm, args, vs, f, n. auto.
Qed.
Lemma crash_node_sub t t' : (forall s, leaf s t' -> leaf s t) -> crashes t' -> crashes t.
Proof.
  intros H. pose proof (fun e => evaluated_sub t t' e H) as He. intros [(f & L & R)|[(f & L & R)|(nm & args & vs & f & n & L & R)]].
  - left. exists f. auto.
  - right. left. exists f. auto.
  - right. right. exists nm, args, vs, f, n. auto.
Qed.
Lemma render_list_ok l n : Forall (fun t => forall n, outcome_node t (fst (render_node t n))) l ->
  match fst (render_list l n) with
  | Ok vs => Forall2 renders l vs
  | Err x => exists t, In t l /\ goes_wrong t x
  | Panic => exists t, In t l /\ crashes t
  end.
Proof.
  intros H. revert n. induction H as [|a l Ha Hl IH]; intros n; [constructor|]. cbn [render_list]. specialize (Ha n). destruct (render_node a n) as [[v|x|] n1]; cbn [fst bind outcome_node] in *.
  - specialize (IH n1). destruct (render_list l n1) as [[vs|x|] n2]; cbn [fst bind] in *; [constructor; auto| |]; destruct IH as (b & Hb & W); exists b; split; auto; now right.
  - exists a. split; [now left|exact Ha].
  - exists a. split; [now left|exact Ha].
Qed.
Lemma get_app {A} key (a b : list (text * A)) : get key (a ++ b) = match get key a with Some v => Some v | None => get key b end.
Proof. induction a as [|[k' v] a IH]; [reflexivity|]. cbn. now destruct (text_eqb key k'). Qed.
Lemma render_entries_ok m acc n : Forall (fun kx => forall n, outcome_node (snd kx) (fst (render_node (snd kx) n))) m -> NoDup (map fst m) -> keys_sorted acc ->
  match fst (render_entries m acc n) with
  | Ok o => exists kvs, Forall2 (fun kx kv => fst kx = fst kv /\ renders (snd kx) (snd kv)) m kvs /\ keys_sorted o /\
              forall key, get key o = match get key kvs with Some v => Some v | None => get key acc end
  | Err x => exists key t, In (key, t) m /\ goes_wrong t x
  | Panic => exists key t, In (key, t) m /\ crashes t
  end.
Proof.
  intros H. revert acc n. induction H as [|[key a] m Ha Hm IH]; intros acc n Nd Hs.
  - cbn. exists []. repeat split; auto.
  - cbn [render_entries]. cbn [map fst] in Nd. inversion Nd as [|? ? Nin Nd']; subst. cbn [snd] in Ha. specialize (Ha n). destruct (render_node a n) as [[v|x|] n1]; cbn [fst bind outcome_node] in *.
    + specialize (IH (set key v acc) n1 Nd' (set_sorted key v acc Hs)). destruct (fst (render_entries m (set key v acc) n1)) as [o|x|].
      * destruct IH as (kvs & F & So & G). exists ((key, v) :: kvs). split; [constructor; auto|]. split; [exact So|]. intros key'. rewrite G. cbn [get].
        destruct (text_eqb key' key) eqn:E.
        -- apply text_eqb_eq in E. subst key'. assert (get key kvs = None) as ->.
           { destruct (get key kvs) as [w|] eqn:Gk; [|reflexivity]. elim Nin. apply get_In in Gk. clear - F Gk. induction F as [|[kx x] [kv y] m kvs [E _] F IH]; [destruct Gk|]. cbn in E. subst kv. cbn. destruct Gk as [Gk|Gk]; [injection Gk as -> ->; now left|right; auto]. }
           apply get_set_eq.
        -- destruct (get key' kvs); [reflexivity|]. apply get_set_neq. intros X. subst. now rewrite text_eqb_refl in E.
      * destruct IH as (key' & t & Hin & W). exists key', t. split; [now right|exact W].
      * destruct IH as (key' & t & Hin & W). exists key', t. split; [now right|exact W].
    + exists key, a. split; [now left|exact Ha].
    + exists key, a. split; [now left|exact Ha].
Qed.
Lemma render_node_ok t : proper_maps t -> forall n, outcome_node t (fst (render_node t n)).
Proof.
  induction t as [s| |l IH|m IH] using rnode_nested; intros Hp n.
  - apply render_scalar_ok.
  - constructor.
  - rewrite render_seq_eq. inversion Hp as [| |? Hl|]; subst. assert (F : Forall (fun t => forall n, outcome_node t (fst (render_node t n))) l).
    { rewrite Forall_forall in *. intros x Hx. apply IH; auto. }
    pose proof (render_list_ok l n F) as A. destruct (render_list l n) as [[vs|x|] n1]; cbn [fst bind outcome_node] in *.
    + now constructor.
    + destruct A as (t & Ht & W). apply (wrong_node_sub _ t); [|exact W]. intros s Hs. now apply L_seq with t.
    + destruct A as (t & Ht & W). apply (crash_node_sub _ t); [|exact W]. intros s Hs. now apply L_seq with t.
  - rewrite render_map_eq. inversion Hp as [| | |? Nd Hm]; subst. assert (F : Forall (fun kx => forall n, outcome_node (snd kx) (fst (render_node (snd kx) n))) m).
    { rewrite Forall_forall in *. intros x Hx. apply IH; auto. }
    pose proof (render_entries_ok m [] n F Nd I) as A. destruct (render_entries m [] n) as [[o|x|] n1]; cbn [fst bind outcome_node] in *.
    + destruct A as (kvs & Fm & So & G). apply R_map with kvs; auto. intros key. rewrite G. now destruct (get key kvs).
    + destruct A as (key & t & Ht & W). apply (wrong_node_sub _ t); [|exact W]. intros s Hs. now apply L_map with key t.
    + destruct A as (key & t & Ht & W). apply (crash_node_sub _ t); [|exact W]. intros s Hs. now apply L_map with key t.
Qed.

Lemma render_complete t : proper_maps t -> no_random k parse_path parse_float t -> forall v n, renders t v -> fst (render_node t n) = Ok v.
Proof.
  assert (SUB : forall t t', (forall s, leaf s t' -> leaf s t) -> no_random k parse_path parse_float t -> no_random k parse_path parse_float t').
  { intros t1 t' H Hr nm args Hev. apply (Hr nm args). now apply evaluated_sub with t'. }
  induction t as [s| |l IH|m IH] using rnode_nested; intros Hp Hr v n Hv.
  - inversion Hv as [t N1 N2|u p w E S|u c w E A|z|f Hf|b| | |]; subst; cbn [render_node render_scalar PayloadModel.render_node PayloadModel.render_scalar]; try reflexivity.
    + destruct (starts_with (chars "func:") t) eqn:E1; [apply starts_with_iff in E1; destruct E1 as [u E1]; now elim (N1 u)|].
      destruct (starts_with (chars "$") t) eqn:E2; [apply starts_with_iff in E2; destruct E2 as [u E2]; now elim (N2 u)|]. reflexivity.
    + change (36%N :: u) with (chars "$" ++ u). assert (starts_with (chars "func:") (chars "$" ++ u) = false) as -> by reflexivity. assert (starts_with (chars "$") (chars "$" ++ u) = true) as -> by (apply starts_with_iff; eauto).
      change (parse_path (chars "$" ++ u) = Some p) in E. rewrite E. cbn [fst]. f_equal. now apply extract_selected.
    + change (starts_with (chars "func:") _) with (starts_with (chars "func:") (chars "func:" ++ u)). rewrite call_prefix. change (skipn 5 _) with u. rewrite E. change (compute_call c n) with (compute_arg (ECall c) n). apply compute_complete; [|exact A]. intros nm args W. apply (Hr nm args). exists u, c. repeat split; auto. constructor.
    + now rewrite (proj2 (from_f64_finite f (NFloat f))).
  - inversion Hv. reflexivity.
  - inversion Hv as [| | | | | | |? vs Hvs|]; subst. inversion Hp as [| |? Hl|]; subst. rewrite render_seq_eq.
    assert (Hr' : forall t, In t l -> no_random k parse_path parse_float t). { intros t Ht. apply (SUB (RSeq l)); [|exact Hr]. intros s Hs. now apply L_seq with t. }
    assert (A : forall n, fst (render_list l n) = Ok vs).
    { clear - IH Hvs Hr' Hl. induction Hvs as [|a w l vs Ha Hvs IHv]; intros n; [reflexivity|]. inversion IH as [|? ? IHa IHl]; subst. inversion Hl as [|? ? Pa Pl]; subst. cbn [render_list].
      pose proof (IHa Pa (Hr' a (or_introl eq_refl)) w n Ha) as E. destruct (render_node a n) as [r n1]. cbn [fst] in E. subst r. cbn [bind].
      specialize (IHv IHl Pl (fun b Hb => Hr' b (or_intror Hb)) n1). destruct (render_list l n1) as [r n2]. cbn [fst] in IHv. subst r. reflexivity. }
    specialize (A n). destruct (render_list l n) as [r n1]. cbn [fst] in A. subst r. reflexivity.
  - inversion Hv as [| | | | | | | |? kvs o Hvs So G]; subst. inversion Hp as [| | |? Nd Hm]; subst. rewrite render_map_eq.
    assert (Hr' : forall kx, In kx m -> no_random k parse_path parse_float (snd kx)). { intros [key t] Ht. apply (SUB (RMap m)); [|exact Hr]. intros s Hs. now apply L_map with key t. }
    assert (A : forall acc n, fst (render_entries m acc n) = Ok (set_all kvs acc)).
    { clear - IH Hvs Hr' Hm. induction Hvs as [|[key a] [key' w] m kvs [E Ha] Hvs IHv]; intros acc n; [reflexivity|]. cbn in E. subst key'. inversion IH as [|? ? IHa IHl]; subst. inversion Hm as [|? ? Pa Pl]; subst. cbn [render_entries set_all]. cbn [snd] in *.
      pose proof (IHa Pa (Hr' (key, a) (or_introl eq_refl)) w n Ha) as E. destruct (render_node a n) as [r n1]. cbn [fst] in E. subst r. cbn [bind].
      apply IHv; auto. intros b Hb. apply Hr'. now right. }
    specialize (A [] n). destruct (render_entries m [] n) as [r n1]. cbn [fst] in A. subst r. cbn [bind fst]. do 2 f_equal.
    apply sorted_ext; [now apply set_all_sorted|exact So|]. intros key. rewrite G.
    assert (Nk : NoDup (map fst kvs)). { replace (map fst kvs) with (map fst m); [exact Nd|]. clear - Hvs. induction Hvs as [|x y m kvs [E _] F IH]; [reflexivity|]. cbn. now rewrite E, IH. }
    clear - Nk. assert (H : forall acc, get key (set_all kvs acc) = match get key kvs with Some v => Some v | None => get key acc end).
    { induction kvs as [|[k' v] kvs IH]; intros acc; [reflexivity|]. cbn [set_all get]. cbn in Nk. inversion Nk; subst. rewrite IH by assumption. destruct (text_eqb key k') eqn:E.
      - apply text_eqb_eq in E. subst k'. destruct (get key kvs) as [w|] eqn:Gk; [elim H1; apply get_In in Gk; now apply (in_map fst) in Gk|]. apply get_set_eq.
      - destruct (get key kvs); [reflexivity|]. apply get_set_neq. intros X. subst. now rewrite text_eqb_refl in E. }
    rewrite H. now destruct (get key kvs).
Qed.
End Params.
