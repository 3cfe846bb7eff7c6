(** Lemmas for C138 and C139. *)
From Verif Require Import Base Chars SubstModel SubstProps ResolveModel ResolveSpec BlueprintModel WfYamlModel WfYamlSpec WfYamlProofs WfTypes WfResolveModel WfResolveSpec WfResolveProofs
  SpecYamlModel SpecYamlSpec SpecJsonSpec SpecResolveModel SpecResolveSpec PortableSpec.
Local Open Scope list_scope.

Lemma has_map n m key w : has n (YMap m) key w <-> In (Some key, w) m.
Proof. split; [intros [(m' & [= <-] & H)|(l & X & _)]; [exact H|discriminate]|]. intros H. left. eauto. Qed.

(** * What both readers make of one value *)
Definition agree {A C} (J Y : yaml -> A -> Prop) (R : A -> C -> Prop) (v : yaml) : Prop :=
  forall a b c c', J v a -> Y v b -> R a c -> R b c' -> c = c'.
Section Fields.
Variable m : list (option text * yaml).
Hypothesis Hm : NoDup (keys_of m).
Lemma req_req {A C} n key (J Y : yaml -> A -> Prop) (R : A -> C -> Prop) a b c c' :
  (forall w, In (Some key, w) m -> agree J Y R w) -> field_req n (YMap m) key J a -> required m key Y b -> R a c -> R b c' -> c = c'.
Proof.
  intros G (w & Hw & Ja) (w' & Hw' & Yb) Ra Rb. apply has_map in Hw. rewrite (keys_once _ _ _ _ Hm Hw' Hw) in Yb. exact (G w Hw a b c c' Ja Yb Ra Rb).
Qed.
Lemma req_def {A C} n key (J Y : yaml -> A -> Prop) d (R : A -> C -> Prop) a b c c' :
  (forall w, In (Some key, w) m -> agree J Y R w) -> field_req n (YMap m) key J a -> defaults m key Y d b -> R a c -> R b c' -> c = c'.
Proof.
  intros G (w & Hw & Ja) [Yb|[N _]] Ra Rb; [exact (req_req n key J Y R a b c c' G (ex_intro _ w (conj Hw Ja)) Yb Ra Rb)|].
  elim N. apply keys_in. exists w. now apply has_map in Hw.
Qed.
Lemma opt_opt {A C} n key (J Y : yaml -> A -> Prop) (R : A -> C -> Prop) a b c c' :
  (forall x, ~ Y YNull x) -> (forall w, In (Some key, w) m -> agree J Y R w) ->
  field_opt n (YMap m) key J a -> optional m key Y b -> both R a c -> both R b c' -> c = c'.
Proof.
  intros N G [(w & a' & Hw & _ & Ja & ->)|(Hn & ->)] [(w' & b' & Hw' & Yb & ->)|(L & ->)] Ra Rb.
  - inversion Ra; inversion Rb; subst. f_equal. apply has_map in Hw. rewrite (keys_once _ _ _ _ Hm Hw' Hw) in Yb. eapply (G w Hw); eassumption.
  - elim L. apply keys_in. exists w. now apply has_map in Hw.
  - rewrite (Hn w') in Yb by now apply has_map. elim (N _ Yb).
  - inversion Ra; inversion Rb; subst. reflexivity.
Qed.
Lemma opt_len {A C} n key ok (J Y : yaml -> A -> Prop) (R : A -> C -> Prop) a b c c' :
  ~ ok YNull -> (forall w x, In (Some key, w) m -> J w x -> ok w) -> (forall w, In (Some key, w) m -> agree J Y R w) ->
  field_opt n (YMap m) key J a -> lenient m key ok Y b -> both R a c -> both R b c' -> c = c'.
Proof.
  intros N K G [(w & a' & Hw & _ & Ja & ->)|(Hn & ->)] [(w' & b' & Hw' & Hok & Yb & ->)|(L & ->)] Ra Rb.
  - inversion Ra; inversion Rb; subst. f_equal. apply has_map in Hw. rewrite (keys_once _ _ _ _ Hm Hw' Hw) in Yb. eapply (G w Hw); eassumption.
  - apply has_map in Hw. elim (L w Hw). now apply (K w a').
  - rewrite (Hn w') in Hok by now apply has_map. elim (N Hok).
  - inversion Ra; inversion Rb; subst. reflexivity.
Qed.
End Fields.

Arguments req_req {m} Hm {A C n key J Y R a b c c'}. Arguments req_def {m} Hm {A C n key J Y d R a b c c'}.
Arguments opt_opt {m} Hm {A C n key J Y R a b c c'}. Arguments opt_len {m} Hm {A C n key ok J Y R a b c c'}.

(** * Lists and objects *)
Lemma all2 {A C} (J Y : yaml -> A -> Prop) (R : A -> C -> Prop) l : (forall w, In w l -> agree J Y R w) ->
  forall a b c c', Forall2 J l a -> Forall2 Y l b -> Forall2 R a c -> Forall2 R b c' -> c = c'.
Proof.
  induction l as [|w l IH]; intros G a b c c' Ja Yb Ra Rb; inversion Ja; subst; inversion Yb; subst; inversion Ra; subst; inversion Rb; subst; [reflexivity|].
  f_equal; [eapply (G w); [now left|eassumption..]|]. eapply IH; [|eassumption..]. intros x Hx. apply G. now right.
Qed.
Lemma agree_seq {A C} (J Y : yaml -> A -> Prop) (R : A -> C -> Prop) v : (forall l w, v = YSeq l -> In w l -> agree J Y R w) ->
  agree (is_array J) (fun v r => exists l, v = YSeq l /\ Forall2 Y l r) (Forall2 R) v.
Proof. intros G a b c c' (l & -> & Ja) (l' & [= <-] & Yb). apply (all2 J Y R l); [|exact Ja|exact Yb]. intros w. now apply G. Qed.
(** Elements that are objects or arrays *)
Definition structs {A} (J : yaml -> A -> Prop) : Prop := forall v a, J v a -> (exists m, v = YMap m) \/ exists l, v = YSeq l.
Lemma struct_map {A} (J : yaml -> A -> Prop) v a : structs J -> not_array v -> J v a -> exists m, v = YMap m.
Proof. intros S N Ja. destruct (S v a Ja) as [H|(l & ->)]; [exact H|]. now elim (N l). Qed.
Lemma agree_list {A C} (J : yaml -> A -> Prop) Y (R : A -> C -> Prop) v : structs J -> (forall l w, v = YSeq l -> In w l -> not_array w) ->
  (forall l w, v = YSeq l -> In w l -> agree J (is_mapping Y) R w) -> agree (is_array J) (is_list Y) (Forall2 R) v.
Proof.
  intros S N G a b c c' (l & -> & Ja) (l' & [= <-] & Yb). specialize (N l). specialize (G l). revert b Yb c c'.
  induction Ja as [|w a' l a Jw Ja IH]; intros b Yb c c' Ra Rb; [inversion Yb; subst; inversion Ra; inversion Rb; reflexivity|].
  destruct (struct_map J w a' S (N w eq_refl (or_introl eq_refl)) Jw) as (m & ->). cbn in Yb. inversion Yb; subst; inversion Ra; subst; inversion Rb; subst.
  f_equal; [eapply (G (YMap m)); [reflexivity|now left|exact Jw|exists m; split; [reflexivity|eassumption]|eassumption..]|].
  eapply IH; [intros w _ Hw; apply G; [reflexivity|now right]|intros w _ Hw; apply N; [reflexivity|now right]|eassumption..].
Qed.
Lemma last_id {A} (l : list (text * A)) : NoDup (map fst l) -> last_ones l = l.
Proof.
  induction l as [|e l IH]; cbn; [reflexivity|]. intros H. apply NoDup_cons_iff in H as [N H]. rewrite (IH H). destruct (existsb _ l) eqn:E; [|reflexivity].
  apply existsb_exists in E. destruct E as (e' & Hi & E). apply teq in E. elim N. rewrite <- E. now apply List.in_map.
Qed.
Lemma object_names {A} (J : yaml -> A -> Prop) m all : Forall2 (fun a b => fst a = Some (fst b) /\ J (snd a) (snd b)) m all -> keys_of m = map fst all.
Proof. induction 1 as [|[key v] [key' a] m all [E _] H IH]; [reflexivity|]. cbn in *. subst. cbn. now f_equal. Qed.
Lemma agree_object {A C} (J Y : yaml -> A -> Prop) (R : A -> C -> Prop) v : one_each v -> (forall m key w, v = YMap m -> In (Some key, w) m -> agree J Y R w) ->
  agree (is_object J) (is_mapping (fun m r => Forall2 (fun a b => fst a = fst b /\ Y (snd a) (snd b)) (entries_of m) r)) (named R) v.
Proof.
  intros O G a b c c' (m & all & -> & Ja & ->) (m' & [= <-] & Yb). rewrite last_id by (rewrite <- (object_names J m all Ja); now apply one_each_keys).
  specialize (G m). clear O. revert b Yb c c'. induction Ja as [|[key w] [key' a'] m all [E Jw] Ja IH]; intros b Yb c c' Ra Rb; [inversion Yb; subst; inversion Ra; inversion Rb; reflexivity|].
  cbn in E, Jw. subst key. cbn in Yb. inversion Yb as [|? [k1 b1] ? ? [E1 Y1]]; subst; inversion Ra as [|? [k2 c1] ? ? [E2 R2]]; subst; inversion Rb as [|? [k3 c2] ? ? [E3 R3]]; subst.
  cbn in *. subst. f_equal; [f_equal; eapply (G _ w); [reflexivity|now left|eassumption..]|]. eapply IH; [|eassumption..]. intros key v _ Hv. eapply G; [reflexivity|right; exact Hv].
Qed.
Lemma agree_named {A C} (J : yaml -> A -> Prop) Y (R : A -> C -> Prop) v : structs J -> one_each v ->
  (forall m key w, v = YMap m -> In (key, w) m -> not_array w) -> (forall m key w, v = YMap m -> In (Some key, w) m -> agree J (is_mapping Y) R w) ->
  agree (is_object J) (is_mapping (are_named Y)) (named R) v.
Proof.
  intros S O N G a b c c' (m & all & -> & Ja & ->) (m' & [= <-] & Yb). rewrite last_id by (rewrite <- (object_names J m all Ja); now apply one_each_keys).
  specialize (G m). specialize (N m). clear O. unfold are_named in Yb. revert b Yb c c'.
  induction Ja as [|[key w] [key' a'] m all [E Jw] Ja IH]; intros b Yb c c' Ra Rb; [inversion Yb; subst; inversion Ra; inversion Rb; reflexivity|].
  cbn in E, Jw. subst key. destruct (struct_map J w a' S (N _ w eq_refl (or_introl eq_refl)) Jw) as (mm & ->). cbn in Yb.
  inversion Yb as [|? [k1 b1] ? ? [E1 Y1]]; subst; inversion Ra as [|? [k2 c1] ? ? [E2 R2]]; subst; inversion Rb as [|? [k3 c2] ? ? [E3 R3]]; subst.
  cbn in *. subst. f_equal; [f_equal; eapply (G _ (YMap mm)); [reflexivity|now left|exact Jw|exists mm; split; [reflexivity|exact Y1]|eassumption..]|].
  eapply IH; [intros key v _ Hv; eapply G; [reflexivity|right; exact Hv]|intros key v _ Hv; eapply N; [reflexivity|right; exact Hv]|eassumption..].
Qed.

Lemma portable_inside jt v w : portable jt v -> inside w v -> portable jt w.
Proof.
  intros (H1 & H2 & H0 & H3 & H4 & H5 & H6 & H7) Hi.
  assert (M : forall key x, member key x w -> member key x v). { intros key x (m & Hm & Hx). exists m. split; [eapply inside_trans; eassumption|exact Hx]. }
  split; [eapply one_each_inside; eassumption|]. split; [intros z Hz; apply H2; eapply inside_trans; eassumption|]. split; [intros t Ht; apply H0; eapply inside_trans; eassumption|].
  split; [intros key x Hk Hx; eapply H3; eauto|]. split; [intros key m name x Hk Hx Hw; eapply H4; eauto|]. split; [intros key l x Hk Hx Hw; eapply H5; eauto|].
  split; [intros key x t Hk Hx Hw; eapply H6; eauto|]. intros m x y Hx; apply H7; eauto.
Qed.
Lemma portable_map jt m key w : portable jt (YMap m) -> In (key, w) m -> portable jt w.
Proof. intros H Hi. eapply portable_inside; [exact H|]. econstructor; [exact Hi|constructor]. Qed.
Lemma portable_seq jt l w : portable jt (YSeq l) -> In w l -> portable jt w.
Proof. intros H Hi. eapply portable_inside; [exact H|]. econstructor; [exact Hi|constructor]. Qed.
Lemma member_top key w m : In (Some key, w) m -> member key w (YMap m).
Proof. intros H. exists m. split; [constructor|exact H]. Qed.

Section Params.
Variable F : Type.
Variable parse_f64 : text -> option F.
Variable k : classes.
Variable json_text : text -> option text.
Variable of_int : Z -> F.
Variable env : text -> option text.
Notation portable := (portable json_text).
Notation txt := (parts_text env).
Notation is_value := (is_value F parse_f64 k json_text).
Notation is_text := (is_text k).

Lemma txt_unique ps t t' : txt ps t -> txt ps t' -> t = t'.
Proof. intros H H'. apply str_ok in H, H'. congruence. Qed.
Lemma text_unique v a b : is_text v a -> is_text v b -> a = b.
Proof. intros (t & -> & E) (t' & [= <-] & E'). congruence. Qed.
Lemma text_agree {C} (R : list part -> C -> Prop) v : (forall a c c', R a c -> R a c' -> c = c') -> agree is_text is_text R v.
Proof. intros U a b c c' Ja Yb. rewrite (text_unique v b a Yb Ja). apply U. Qed.
Lemma txt_agree v : agree is_text is_text txt v.
Proof. apply text_agree. intros a c c'. apply txt_unique. Qed.
Lemma names_unique {C} (names : list (text * C)) : NoDup (map fst names) -> forall t c c', In (t, c) names -> In (t, c') names -> c = c'.
Proof.
  intros N t c c' H H'. induction names as [|[u x] l IH]; [destruct H|]. cbn in N. apply NoDup_cons_iff in N as [N N']. destruct H as [[= -> ->]|H], H' as [[= ->]|H'].
  - reflexivity.
  - elim N. apply in_map_iff. exists (t, c'). auto.
  - subst. elim N. apply in_map_iff. exists (t, c). auto.
  - now apply IH.
Qed.
Lemma choice_unique {C} (names : list (text * C)) ps c c' : NoDup (map fst names) -> choice_is env names ps c -> choice_is env names ps c' -> c = c'.
Proof. intros N (t & Ht & Hc) (t' & Ht' & Hc'). rewrite (txt_unique ps t' t Ht' Ht) in Hc'. now apply (names_unique names N t). Qed.
Lemma texts_agree v : agree (is_array is_text) (is_texts k) (Forall2 txt) v.
Proof. apply (agree_seq is_text is_text txt). intros. apply txt_agree. Qed.
Lemma strmap_agree v : portable v -> agree (is_object is_text) (is_mapping (is_strmap k)) (named txt) v.
Proof. intros P. apply (agree_object is_text is_text txt); [apply P|]. intros. apply txt_agree. Qed.

(** Values of a type *)
Lemma wraps_id v z : portable v -> v = YInt z -> wraps z = z.
Proof. intros (_ & P & _) ->. unfold wraps. specialize (P z (in_here _)). destruct (Z.ltb_spec z (2 ^ 63)); [reflexivity|lia]. Qed.
Lemma value_text v t n : portable v -> v = YStr t -> is_value v n -> n = NScalar F (SStr F t).
Proof.
  intros (_ & _ & P & _) -> H. specialize (P t (in_here _)). inversion H as [| | |t' n' Ht| |]; subst. inversion Ht as [t' Hn|t' u ps Hu Hp]; subst; [reflexivity|congruence].
Qed.
Lemma scalar_only v t a s : portable v -> v = YStr t -> is_value v a -> scalar_is F parse_f64 env a s -> s = SStr F t.
Proof. intros P E Ha Hs. rewrite (value_text v t a P E Ha) in Hs. destruct Hs as [Hs|(ps & Hs & _)]; [now injection Hs|discriminate]. Qed.
Lemma int_agree v : portable v -> agree is_value (is_int F k) (int_is F parse_f64 env) v.
Proof.
  intros P a b c c' Ja [(z & E & ->)|(t & name & E & _)] Ra Rb.
  - destruct Rb as [Rb|(ps & Rb & _)]; [|discriminate]. injection Rb as <-. subst v. inversion Ja; subst. destruct Ra as [Ra|(ps & Ra & _)]; [|discriminate]. injection Ra as <-.
    now apply (wraps_id (YInt z)).
  - discriminate (scalar_only v t a _ P E Ja Ra).
Qed.
Lemma bool_agree v : portable v -> agree is_value (is_bool F k) (bool_is F parse_f64 env) v.
Proof.
  intros P a b c c' Ja [(z & E & ->)|(t & name & E & _)] Ra Rb.
  - destruct Rb as [Rb|(ps & Rb & _)]; [|discriminate]. injection Rb as <-. subst v. inversion Ja; subst. destruct Ra as [Ra|(ps & Ra & _)]; [|discriminate]. now injection Ra as <-.
  - discriminate (scalar_only v t a _ P E Ja Ra).
Qed.
Lemma real_agree v : portable v -> agree is_value (is_real F parse_f64 k) (float_is F parse_f64 env) v.
Proof.
  intros P a b c c' Ja [(u & f & E & Ef & ->)|(t & name & E & _)] Ra Rb.
  - destruct Rb as [Rb|(ps & Rb & _)]; [|discriminate]. injection Rb as <-. subst v. inversion Ja; subst. destruct Ra as [Ra|(ps & Ra & _)]; [|discriminate]. injection Ra as <-. congruence.
  - discriminate (scalar_only v t a _ P E Ja Ra).
Qed.
Lemma null_text x : ~ is_text YNull x. Proof. intros (t & [=] & _). Qed.
Lemma null_int x : ~ is_int F k YNull x. Proof. intros [(z & [=] & _)|(t & n & [=] & _)]. Qed.
Lemma null_bool x : ~ is_bool F k YNull x. Proof. intros [(z & [=] & _)|(t & n & [=] & _)]. Qed.
Lemma null_real x : ~ is_real F parse_f64 k YNull x. Proof. intros [(z & f & [=] & _)|(t & n & [=] & _)]. Qed.
Lemma null_texts x : ~ is_texts k YNull x. Proof. intros (l & [=] & _). Qed.
Lemma null_mapping {B} (R : _ -> B -> Prop) x : ~ is_mapping R YNull x. Proof. intros (l & [=] & _). Qed.
Lemma null_list {B} (R : _ -> B -> Prop) x : ~ is_list R YNull x. Proof. intros (l & [=] & _). Qed.
Lemma null_node x : ~ is_node F parse_f64 k YNull x. Proof. intros H. inversion H. Qed.

(** Free-form values *)
Definition literals (v : yaml) : Prop := forall t, inside (YStr t) v -> contains (chars "${") t = false.
Lemma lit_scalar t s : parts_scalar F parse_f64 env [Lit t] s -> s = SStr F t.
Proof. intros H. inversion H as [|ps u Hn (ts & Ht & E)]; subst. inversion Ht as [|? ? ? ? Hp Hr]; subst. inversion Hr; subst. cbn in Hp. subst. cbn. now rewrite app_nil_r. Qed.
Lemma node_agree v : portable v -> literals v -> agree is_value (is_node F parse_f64 k) (resolved F parse_f64 env) v.
Proof.
  induction v as [v IHs IHm] using yaml_deep. intros P L a b c c' Ja Yb Ra Rb. destruct v as [t|z|t|x| |l|m].
  - rewrite (value_text _ t a P eq_refl Ja) in Ra. inversion Yb as [| | |t' ps Hp| |]; subst. rewrite (C51_plain_text k t (L t (in_here _))) in Hp. injection Hp as <-.
    inversion Ra; subst. inversion Rb as [| |ps s Hs| |]; subst. f_equal. symmetry. now apply lit_scalar.
  - inversion Ja; subst. rewrite (wraps_id (YInt z) z P eq_refl) in Ra. inversion Yb; subst. inversion Ra; subst. now inversion Rb.
  - inversion Ja; subst. inversion Yb; subst. inversion Ra; subst. inversion Rb; subst. congruence.
  - inversion Ja; subst. inversion Yb; subst. inversion Ra; subst. now inversion Rb.
  - inversion Ja.
  - inversion Ja as [| | | |l' r Hr|]; subst. inversion Yb as [| | | |l' r' Hr'|]; subst. inversion Ra as [| | |l1 r1 H1|]; subst. inversion Rb as [| | |l2 r2 H2|]; subst. f_equal.
    eapply all2; [|exact Hr|exact Hr'|exact H1|exact H2]. intros w Hw. apply (IHs l w w eq_refl Hw (in_here _)); [eapply portable_seq; eassumption|].
    intros t Ht. apply L. econstructor; eassumption.
  - inversion Ja as [| | | | |m' r Hr]; subst. inversion Yb as [| | | | |m' r' Hr']; subst. inversion Ra as [| | | |l1 r1 H1]; subst. inversion Rb as [| | | |l2 r2 H2]; subst. f_equal.
    apply (agree_object is_value (is_node F parse_f64 k) (resolved F parse_f64 env) (YMap m) (proj1 P)) with (a := last_ones r) (b := r'); [|exists m, r; auto|exists m; auto|exact H1|exact H2].
    intros m' key w [= <-] Hw. apply (IHm m (Some key) w w eq_refl Hw (in_here _)); [eapply portable_map; eassumption|].
    intros t Ht. apply L. econstructor; eassumption.
Qed.
Lemma free_literals m key w : portable (YMap m) -> In key free_keys -> In (Some key, w) m -> literals w.
Proof. intros (_ & _ & _ & _ & _ & _ & P & _) Hk Hw t Ht. exact (P key w t Hk (member_top key w m Hw) Ht). Qed.
Lemma literals_map m key w : literals (YMap m) -> In (key, w) m -> literals w.
Proof. intros L Hw t Ht. apply L. econstructor; eassumption. Qed.
Lemma literals_seq l w : literals (YSeq l) -> In w l -> literals w.
Proof. intros L Hw t Ht. apply L. econstructor; eassumption. Qed.
Lemma value_agree d v : portable v -> literals v -> agree is_value (is_node F parse_f64 k) (value_is F parse_f64 env d) v.
Proof. intros P L a b c c' Ja Yb [Ra _] [Rb _]. eapply node_agree; eassumption. Qed.
Lemma scalar_resolved n s : scalar_is F parse_f64 env n s -> resolved F parse_f64 env n (RScalar F s).
Proof. intros [->|(ps & -> & H)]; now constructor. Qed.
Lemma scalar_agree v : portable v -> literals v -> agree is_value (is_node F parse_f64 k) (scalar_is F parse_f64 env) v.
Proof. intros P L a b c c' Ja Yb Ra Rb. assert (E : RScalar F c = RScalar F c') by exact (node_agree v P L a b _ _ Ja Yb (scalar_resolved _ _ Ra) (scalar_resolved _ _ Rb)). now injection E. Qed.

(** * Specs *)
Lemma struct_structs {A} (J : yaml -> A -> Prop) n : (forall v a, J v a -> is_struct n v) -> structs J.
Proof. intros H v a Ja. destruct (H v a Ja) as [(m & -> & _)|(l & -> & _)]; [left|right]; eauto. Qed.
Ltac prep P := cbn in *; pose proof (one_each_keys _ (proj1 P)) as Nd; pose proof (fun key w => portable_map json_text _ (Some key) w P) as Q.
(** One field of an elementary kind *)
Ltac fld J Y R S :=
  match goal with Nd : NoDup (keys_of _), Q : forall key w, In (Some key, w) _ -> _ |- _ =>
  first [ exact (opt_opt Nd null_text (fun w _ => txt_agree w) J Y R S)
        | exact (opt_opt Nd null_int (fun w Hw => int_agree w (Q _ w Hw)) J Y R S)
        | exact (opt_opt Nd null_bool (fun w Hw => bool_agree w (Q _ w Hw)) J Y R S)
        | exact (opt_opt Nd null_real (fun w Hw => real_agree w (Q _ w Hw)) J Y R S)
        | exact (opt_opt Nd null_texts (fun w _ => texts_agree w) J Y R S)
        | exact (opt_opt Nd (null_mapping _) (fun w Hw => strmap_agree w (Q _ w Hw)) J Y R S)
        | exact (req_req Nd (fun w _ => txt_agree w) J Y R S)
        | exact (req_def Nd (fun w _ => txt_agree w) J Y R S)
        | exact (req_req Nd (fun w _ => texts_agree w) J Y R S)
        | exact (req_def Nd (fun w _ => texts_agree w) J Y R S) ] end.

Lemma shared_agree v : portable v -> agree (json_shared F parse_f64 k json_text) (is_mapping (is_shared F k)) (shared_is F parse_f64 env) v.
Proof.
  intros P a b [c1 c2 c3 c4 c5 c6] [d1 d2 d3 d4 d5 d6] (_ & J1 & J2 & J3 & J4 & J5 & J6) (m & -> & Y1 & Y2 & Y3 & Y4 & Y5 & Y6) (R1 & R2 & R3 & R4 & R5 & R6) (S1 & S2 & S3 & S4 & S5 & S6).
  prep P. f_equal; [fld J1 Y1 R1 S1|fld J2 Y2 R2 S2|fld J3 Y3 R3 S3|fld J4 Y4 R4 S4|fld J5 Y5 R5 S5|fld J6 Y6 R6 S6].
Qed.
Lemma handler_agree v : portable v -> agree (json_handler F parse_f64 k json_text) (is_mapping (is_handler F k)) (handler_is F parse_f64 env) v.
Proof.
  intros P a b [c1 c2 c3 c4 c5 c6 c7 c8] [d1 d2 d3 d4 d5 d6 d7 d8] (_ & J1 & J2 & J3 & J4 & J5 & J6 & J7 & J8) (m & -> & Y1 & Y2 & Y3 & Y4 & Y5 & Y6 & Y7 & Y8)
    (R1 & R2 & R3 & R4 & R5 & R6 & R7 & R8) (S1 & S2 & S3 & S4 & S5 & S6 & S7 & S8).
  prep P. f_equal; [fld J1 Y1 R1 S1|fld J2 Y2 R2 S2|fld J3 Y3 R3 S3|fld J4 Y4 R4 S4|fld J5 Y5 R5 S5|fld J6 Y6 R6 S6|fld J7 Y7 R7 S7|fld J8 Y8 R8 S8].
Qed.
Lemma schedule_agree v : portable v -> agree (json_schedule k) (is_mapping (fun m x => required m (chars "schedule") is_text x)) txt v.
Proof. intros P a b c c' (_ & J1) (m & -> & Y1) R1 S1. prep P. fld J1 Y1 R1 S1. Qed.
Lemma config_agree v : portable v -> agree (json_config k) (is_mapping (is_config k)) (config_is env) v.
Proof. intros P a b [c1 c2] [d1 d2] (_ & J1 & J2) (m & -> & Y1 & Y2) (R1 & R2) (S1 & S2). prep P. f_equal; [fld J1 Y1 R1 S1|fld J2 Y2 R2 S2]. Qed.
Lemma bucket_agree v : portable v -> agree (json_bucket k) (is_mapping (is_bucket k)) (bucket_is env) v.
Proof. intros P a b [c1] [d1] (_ & J1) (m & -> & Y1) R1 S1. prep P. f_equal. fld J1 Y1 R1 S1. Qed.
(** A switch that YAML gives a value when it is left out: it has to be there. *)
Lemma switch_field m n key d a b c c' : portable (YMap m) -> In key (keys_of m) -> field_opt n (YMap m) key is_value a ->
  defaults m key (fun v o => exists x, is_bool F k v x /\ o = Some x) (Some d) b -> both (bool_is F parse_f64 env) a c -> both (bool_is F parse_f64 env) b c' -> c = c'.
Proof.
  intros P Hi J [(w & Hw & x & Hx & ->)|[L _]] R S; [|now elim L]. prep P.
  eapply (opt_opt Nd null_bool (fun w Hw => bool_agree w (Q _ w Hw)) J); [|exact R|exact S]. left. eauto.
Qed.
Definition says_fifo (v : yaml) : Prop := forall m, v = YMap m -> In (chars "fifo") (keys_of m).
Lemma topic_agree v : portable v -> says_fifo v -> agree (json_topic F parse_f64 k json_text) (is_mapping (is_topic F k)) (topic_is F parse_f64 env) v.
Proof.
  intros P Hf a b [c1 c2] [d1 d2] (_ & J1 & J2) (m & -> & Y1 & Y2) (R1 & R2) (S1 & S2). specialize (Hf m eq_refl). prep P.
  f_equal; [fld J1 Y1 R1 S1|exact (switch_field m _ _ _ _ _ _ _ P Hf J2 Y2 R2 S2)].
Qed.
Lemma queue_agree v : portable v -> says_fifo v -> agree (json_queue F parse_f64 k json_text) (is_mapping (is_queue F k)) (queue_is F parse_f64 env) v.
Proof.
  intros P Hf a b [c1 c2 c3] [d1 d2 d3] (_ & J1 & J2 & J3) (m & -> & Y1 & Y2 & Y3) (R1 & R2 & R3) (S1 & S2 & S3). specialize (Hf m eq_refl). prep P.
  f_equal; [fld J1 Y1 R1 S1|exact (switch_field m _ _ _ _ _ _ _ P Hf J2 Y2 R2 S2)|fld J3 Y3 R3 S3].
Qed.

(** Sources of events *)
Lemma event_unique : NoDup (map fst event_names).
Proof. repeat constructor; cbn; intuition discriminate. Qed.
Lemma storage_event_unique : NoDup (map fst storage_event_names).
Proof. repeat constructor; cbn; intuition discriminate. Qed.
Lemma storage_agree v : portable v -> agree (json_storage k) (is_mapping (is_storage k)) (storage_is env) v.
Proof.
  intros P a b [c1 c2] [d1 d2] (_ & J1 & J2) (m & -> & Y1 & Y2) (R1 & R2) (S1 & S2). prep P. f_equal; [fld J1 Y1 R1 S1|].
  refine (req_def Nd (fun w Hw => _) J2 Y2 R2 S2). apply (agree_seq is_text is_text). intros l x _ _. apply text_agree. intros. now apply (choice_unique storage_event_names a0 c c' storage_event_unique).
Qed.
Lemma stream_agree id v : portable v -> agree (json_stream F parse_f64 k json_text id) (is_mapping (is_stream F k id)) (stream_is F parse_f64 env) v.
Proof.
  intros P a b [c1 c2 c3 c4] [d1 d2 d3 d4] (_ & J1 & J2 & J3 & J4) (m & -> & Y1 & Y2 & Y3 & Y4) (R1 & R2 & R3 & R4) (S1 & S2 & S3 & S4). prep P.
  f_equal; [fld J1 Y1 R1 S1|fld J2 Y2 R2 S2|fld J3 Y3 R3 S3|fld J4 Y4 R4 S4].
Qed.
Lemma req_key {A} n m key (J : yaml -> A -> Prop) a : field_req n (YMap m) key J a -> In key (keys_of m).
Proof. intros (w & Hw & _). apply keys_in. exists w. now apply has_map in Hw. Qed.
Lemma event_agree v : portable v -> agree (json_event F parse_f64 k json_text) (is_mapping (is_event F k)) (event_is F parse_f64 env) v.
Proof.
  intros P a b [c1 c2] [d1 d2] (_ & J1 & J2) (m & -> & Y1 & Y2) (R1 & R2) (S1 & S2). prep P.
  assert (E : fst a = fst b).
  { destruct J1 as (w & Hw & t & Ht & Hv), Y1 as (w' & Hw' & t' & -> & Ht'). apply has_map in Hw. rewrite (keys_once _ _ _ _ Nd Hw Hw') in Hv. destruct Hv as [Hv|Hv]; [|discriminate]. injection Hv as <-.
    exact (names_unique event_names event_unique _ _ _ Ht Ht'). }
  f_equal; [congruence|]. destruct J2 as (w & Hw & J), Y2 as (w' & Hw' & mm & -> & Y). apply has_map in Hw. rewrite (keys_once _ _ _ _ Nd Hw Hw') in J. clear w Hw.
  pose proof (Q _ _ Hw') as P'.
  assert (One : forall x y, In x source_keys -> In y source_keys -> In x (keys_of mm) -> In y (keys_of mm) -> x = y).
  { intros x y. destruct P as (_ & _ & _ & _ & _ & _ & _ & P). apply P. now apply member_top. }
  assert (K1 : forall x, is_storage k mm x -> In (chars "bucket") (keys_of mm)). { intros x ((u & Hu & _) & _). apply keys_in. eauto. }
  assert (K2 : forall id x, is_stream F k id mm x -> In id (keys_of mm)). { intros id x ((u & Hu & _) & _). apply keys_in. eauto. }
  assert (L1 : forall x, json_storage k (YMap mm) x -> In (chars "bucket") (keys_of mm)). { intros x (_ & H & _). eapply req_key, H. }
  assert (L2 : forall id x, json_stream F parse_f64 k json_text id (YMap mm) x -> In id (keys_of mm)). { intros id x (_ & H & _). eapply req_key, H. }
  assert (D : forall x y, In x source_keys -> In y source_keys -> x <> y -> In x (keys_of mm) -> In y (keys_of mm) -> False) by (intros x y Hx Hy Hn H H'; apply Hn; now apply One).
  assert (SK : In (chars "bucket") source_keys /\ In (chars "dbStreamId") source_keys /\ In (chars "dataStreamId") source_keys) by (cbn; tauto). destruct SK as (SK1 & SK2 & SK3).
  destruct (fst b); destruct Y as (x & Hx & Ex); rewrite Ex in S2; inversion J as [v s Js E1 E2|v s N1 Js E1 E2|v s N1 N2 Js E1 E2]; subst v; rewrite <- E2 in R2;
    inversion R2 as [y r Hr E3|y r Hr E3|y r Hr E3]; subst y; inversion S2 as [y r' Hr' E4|y r' Hr' E4|y r' Hr' E4]; subst y.
  - f_equal. eapply storage_agree; [exact P'|exact Js| |eassumption..]. exists mm. auto.
  - exfalso. exact (D (chars "bucket") (chars "dbStreamId") SK1 SK2 ltac:(discriminate) (K1 _ Hx) (L2 _ _ Js)).
  - exfalso. exact (D (chars "bucket") (chars "dataStreamId") SK1 SK3 ltac:(discriminate) (K1 _ Hx) (L2 _ _ Js)).
  - exfalso. exact (D (chars "bucket") (chars "dbStreamId") SK1 SK2 ltac:(discriminate) (L1 _ Js) (K2 _ _ Hx)).
  - f_equal. eapply (stream_agree (chars "dbStreamId")); [exact P'|exact Js| |eassumption..]. exists mm. auto.
  - exfalso. exact (D (chars "dbStreamId") (chars "dataStreamId") SK2 SK3 ltac:(discriminate) (K2 _ _ Hx) (L2 _ _ Js)).
  - exfalso. exact (D (chars "bucket") (chars "dataStreamId") SK1 SK3 ltac:(discriminate) (L1 _ Js) (K2 _ _ Hx)).
  - exfalso. exact (D (chars "dbStreamId") (chars "dataStreamId") SK2 SK3 ltac:(discriminate) (L2 _ _ Js) (K2 _ _ Hx)).
  - f_equal. eapply (stream_agree (chars "dataStreamId")); [exact P'|exact Js| |eassumption..]. exists mm. auto.
Qed.
Lemma names_objects m key mm name w : portable (YMap m) -> In key name_keys -> In (Some key, YMap mm) m -> In (name, w) mm -> not_array w.
Proof. intros (_ & _ & _ & _ & P & _) Hk Hm. eapply P; [exact Hk|apply member_top; exact Hm]. Qed.
Lemma lists_objects m key l w : portable (YMap m) -> In key list_keys -> In (Some key, YSeq l) m -> In w l -> not_array w.
Proof. intros (_ & _ & _ & _ & _ & P & _) Hk Hm. eapply P; [exact Hk|apply member_top; exact Hm]. Qed.
Lemma consumer_agree v : portable v -> agree (json_consumer F parse_f64 k json_text) (is_mapping (is_consumer F k)) (consumer_is F parse_f64 env) v.
Proof.
  intros P a b [c1 c2 c3 c4 c5 c6 c7] [d1 d2 d3 d4 d5 d6 d7] (_ & J1 & J2 & J3 & J4 & J5 & J6 & J7) (m & -> & Y1 & Y2 & Y3 & Y4 & Y5 & Y6 & Y7)
    (R1 & R2 & R3 & R4 & R5 & R6 & R7) (S1 & S2 & S3 & S4 & S5 & S6 & S7).
  prep P. f_equal; [fld J1 Y1 R1 S1|fld J2 Y2 R2 S2|fld J3 Y3 R3 S3|fld J4 Y4 R4 S4|fld J5 Y5 R5 S5|fld J6 Y6 R6 S6|].
  refine (opt_opt Nd (null_mapping _) (fun w Hw => _) J7 Y7 R7 S7). apply agree_named.
  - eapply struct_structs. intros v x H. apply H.
  - apply (Q _ _ Hw).
  - intros mm name u -> Hu. eapply names_objects; [exact P| |exact Hw|exact Hu]. clear. cbn. tauto.
  - intros mm name u -> Hu. apply event_agree. eapply portable_map; [exact (Q _ _ Hw)|exact Hu].
Qed.

(** APIs *)
Lemma cors_agree v : portable v -> agree (json_cors F parse_f64 k json_text) (is_mapping (is_cors F k)) (cors_is F parse_f64 env) v.
Proof.
  intros P a b [c1 c2 c3 c4 c5 c6] [d1 d2 d3 d4 d5 d6] (_ & J1 & J2 & J3 & J4 & J5 & J6) (m & -> & Y1 & Y2 & Y3 & Y4 & Y5 & Y6) (R1 & R2 & R3 & R4 & R5 & R6) (S1 & S2 & S3 & S4 & S5 & S6).
  prep P. f_equal; [fld J1 Y1 R1 S1|fld J2 Y2 R2 S2|fld J3 Y3 R3 S3|fld J4 Y4 R4 S4|fld J5 Y5 R5 S5|fld J6 Y6 R6 S6].
Qed.
Lemma not_struct {A} (J : yaml -> A -> Prop) t x : structs J -> ~ J (YStr t) x.
Proof. intros S H. destruct (S _ _ H) as [(m & E)|(l & E)]; discriminate. Qed.
Lemma cors_structs : structs (json_cors F parse_f64 k json_text). Proof. eapply struct_structs. intros v x H. apply H. Qed.
Lemma base_structs : structs (json_base F parse_f64 k json_text). Proof. eapply struct_structs. intros v x H. apply H. Qed.
Lemma source_structs : structs (json_source F parse_f64 k json_text). Proof. eapply struct_structs. intros v x H. apply H. Qed.
Lemma cors_choice_agree v : portable v -> agree (json_cors_choice F parse_f64 k json_text) (is_cors_choice F k) (cors_choice_is F parse_f64 env) v.
Proof.
  intros P a b c c' [(ps & Hp & ->)|(x & Hx & ->)] [(ps' & Hp' & ->)|(m & x' & E & Hx' & ->)] Ra Rb; inversion Ra as [? ? Ra'|? ? Ra']; subst; inversion Rb as [? ? Rb'|? ? Rb']; subst.
  - f_equal. exact (txt_agree v _ _ _ _ Hp Hp' Ra' Rb').
  - destruct Hp as (? & [=] & _).
  - destruct Hp' as (? & -> & _). elim (not_struct _ _ x cors_structs Hx).
  - f_equal. eapply cors_agree; [exact P|exact Hx| |eassumption..]. exists m. auto.
Qed.

(** Protocols *)
Lemma protocol_text v t n : portable v -> literals v -> v = YStr t -> is_value v n -> n = NScalar F (SStr F t).
Proof. intros P _ E H. now apply (value_text v t n P E). Qed.
Lemma protocol_unique : NoDup (map fst protocol_names). Proof. repeat constructor; cbn; intuition discriminate. Qed.
Lemma strategy_unique : NoDup (map fst strategy_names). Proof. repeat constructor; cbn; intuition discriminate. Qed.
Lemma policy_unique : NoDup (map fst policy_names). Proof. repeat constructor; cbn; intuition discriminate. Qed.
Lemma guard_unique : NoDup (map fst guard_names). Proof. repeat constructor; cbn; intuition discriminate. Qed.
(** A choice written as the text, and as parts that are the text *)
Lemma node_choice {C} (names : list (text * C)) t c : NoDup (map fst names) -> node_choice_is F env names (NScalar F (SStr F t)) c -> In (t, c) names.
Proof. intros _ (u & [H|(ps & H & _)] & Hi); [injection H as ->; exact Hi|discriminate]. Qed.
Lemma plain_protocol_agree v : portable v -> agree is_value (is_plain_protocol F) (protocol_is F parse_f64 env) v.
Proof.
  intros P a b c c' Ja (t & E & _ & ->) Ra Rb. rewrite (value_text v t a P E Ja) in Ra.
  destruct Ra as [Ra|(m & w & key & how & X & _)]; [|discriminate]. destruct Rb as [Rb|(m & w & key & how & X & _)]; [|discriminate].
  apply node_choice in Ra, Rb; try exact protocol_unique. exact (names_unique _ protocol_unique t c c' Ra Rb).
Qed.
Lemma base_agree v : portable v -> agree (json_base F parse_f64 k json_text) (is_mapping (is_base F k)) (base_is F parse_f64 env) v.
Proof.
  intros P a b [c1 c2] [d1 d2] (_ & J1 & J2) (m & -> & Y1 & Y2) (R1 & R2) (S1 & S2). prep P. f_equal; [|fld J2 Y2 R2 S2].
  exact (req_def Nd (fun w Hw => plain_protocol_agree w (Q _ w Hw)) J1 Y1 R1 S1).
Qed.
Lemma source_agree v : portable v -> agree (json_source F parse_f64 k json_text) (is_mapping (is_source F k)) (source_is F parse_f64 env) v.
Proof.
  intros P a b [c1 c2] [d1 d2] (_ & J1 & J2) (m & -> & Y1 & Y2) (R1 & R2) (S1 & S2). prep P. f_equal; [|fld J2 Y2 R2 S2].
  exact (req_def Nd (fun w Hw => plain_protocol_agree w (Q _ w Hw)) J1 Y1 R1 S1).
Qed.
Lemma base_path_agree v : portable v -> agree (json_base_path F parse_f64 k json_text) (is_base_path F k) (base_path_is F parse_f64 env) v.
Proof.
  intros P a b c c' [(ps & Hp & ->)|(x & Hx & ->)] [(ps' & Hp' & ->)|(m & x' & E & Hx' & ->)] Ra Rb; inversion Ra as [? ? Ra'|? ? Ra']; subst; inversion Rb as [? ? Rb'|? ? Rb']; subst.
  - f_equal. exact (txt_agree v _ _ _ _ Hp Hp' Ra' Rb').
  - destruct Hp as (? & [=] & _).
  - destruct Hp' as (? & -> & _). elim (not_struct _ _ x base_structs Hx).
  - f_equal. eapply base_agree; [exact P|exact Hx| |eassumption..]. exists m. auto.
Qed.
Lemma value_source_agree v : portable v -> agree (json_value_source F parse_f64 k json_text) (is_value_source F k) (value_source_is F parse_f64 env) v.
Proof.
  intros P a b c c' [(ps & Hp & ->)|(x & Hx & ->)] [(ps' & Hp' & ->)|(m & x' & E & Hx' & ->)] Ra Rb; inversion Ra as [? ? Ra'|? ? Ra']; subst; inversion Rb as [? ? Rb'|? ? Rb']; subst.
  - f_equal. exact (txt_agree v _ _ _ _ Hp Hp' Ra' Rb').
  - destruct Hp as (? & [=] & _).
  - destruct Hp' as (? & -> & _). elim (not_struct _ _ x source_structs Hx).
  - f_equal. eapply source_agree; [exact P|exact Hx| |eassumption..]. exists m. auto.
Qed.
Lemma domain_agree v : portable v -> agree (json_domain F parse_f64 k json_text) (is_mapping (is_domain F k)) (domain_is F parse_f64 env) v.
Proof.
  intros P a b [c1 c2 c3 c4 c5] [d1 d2 d3 d4 d5] (_ & J1 & J2 & J3 & J4 & J5) (m & -> & Y1 & Y2 & Y3 & Y4 & Y5 & _) (R1 & R2 & R3 & R4 & R5) (S1 & S2 & S3 & S4 & S5).
  prep P. f_equal; [fld J1 Y1 R1 S1| |fld J3 Y3 R3 S3|fld J4 Y4 R4 S4|].
  - refine (req_def Nd (fun w Hw => _) J2 Y2 R2 S2). apply agree_seq. intros l x -> Hx. apply base_path_agree. eapply portable_seq; [exact (Q _ _ Hw)|exact Hx].
  - refine (opt_opt Nd null_text (fun w Hw => _) J5 Y5 R5 S5). apply text_agree. intros x y z. apply choice_unique, policy_unique.
Qed.
Lemma guard_type_agree v : agree is_text is_guard_type (guard_type_is env) v.
Proof.
  intros a b c c' (t & -> & Ht) (u & [= <-] & Hu & ->) Ra Rb. assert (E : parse_substitutions k t = Ok [Lit t]) by (apply C51_plain_text; destruct Hu as [<-|[<-|[]]]; reflexivity).
  rewrite E in Ht. injection Ht as <-. exact (choice_unique _ _ _ _ guard_unique Ra Rb).
Qed.
Lemma null_value_source x : ~ is_value_source F k YNull x. Proof. intros [(ps & (t & [=] & _) & _)|(m & y & [=] & _)]. Qed.
Lemma guard_agree v : portable v -> agree (json_guard F parse_f64 k json_text) (is_mapping (is_guard F k)) (guard_is F parse_f64 env) v.
Proof.
  intros P a b [c1 c2 c3 c4] [d1 d2 d3 d4] (_ & J1 & J2 & J3 & J4) (m & -> & Y1 & Y2 & Y3 & Y4 & _) (R1 & R2 & R3 & R4) (S1 & S2 & S3 & S4).
  prep P. f_equal; [|fld J2 Y2 R2 S2| |fld J4 Y4 R4 S4].
  - exact (req_def Nd (fun w Hw => guard_type_agree w) J1 Y1 R1 S1).
  - exact (opt_opt Nd null_value_source (fun w Hw => value_source_agree w (Q _ w Hw)) J3 Y3 R3 S3).
Qed.
Lemma auth_agree v : portable v -> agree (json_auth F parse_f64 k json_text) (is_mapping (is_auth F k)) (auth_is F parse_f64 env) v.
Proof.
  intros P a b [c1 c2] [d1 d2] (_ & J1 & J2) (m & -> & Y2 & Y1) (R1 & R2) (S1 & S2). prep P. f_equal; [fld J1 Y1 R1 S1|].
  refine (req_req Nd (fun w Hw => _) J2 Y2 R2 S2). apply agree_named.
  - eapply struct_structs. intros v x H. apply H.
  - apply (Q _ _ Hw).
  - intros mm name u -> Hu. eapply names_objects; [exact P| |exact Hw|exact Hu]. clear. cbn. tauto.
  - intros mm name u -> Hu. apply guard_agree. eapply portable_map; [exact (Q _ _ Hw)|exact Hu].
Qed.
(** A protocol that is a WebSocket configuration *)
Lemma f2_r {A B} (P : A -> B -> Prop) l r y : Forall2 P l r -> In y r -> exists x, In x l /\ P x y.
Proof. induction 1 as [|a b l r H _ IH]; intros Hy; [destruct Hy|]. destruct Hy as [<-|Hy]; [exists a; cbn; auto|]. destruct (IH Hy) as (x & Hx & Hp). exists x. cbn. auto. Qed.
Lemma f2_l {A B} (P : A -> B -> Prop) l r x : Forall2 P l r -> In x l -> exists y, In y r /\ P x y.
Proof. induction 1 as [|a b l r H _ IH]; intros Hy; [destruct Hy|]. destruct Hy as [<-|Hy]; [exists b; cbn; auto|]. destruct (IH Hy) as (y & Hx & Hp). exists y. cbn. auto. Qed.
Lemma entries_in key v m : In (key, v) (entries_of m) <-> In (Some key, v) m.
Proof.
  unfold entries_of. rewrite in_flat_map. split.
  - intros ([[key'|] v'] & Hi & Hk); cbn in Hk; [|destruct Hk]. destruct Hk as [[= -> ->]|[]]. exact Hi.
  - intros Hi. exists (Some key, v). split; [exact Hi|now left].
Qed.
Lemma holds_in {A} (m : list (text * A)) key v : holds m key v -> In (key, v) m.
Proof. intros (pre & post & -> & _). apply in_elt. Qed.
(** A field of a JSON object, and of a YAML one of which some entries are kept *)
Lemma json_field {B} mm all key (R : node F -> B -> Prop) o : NoDup (keys_of mm) -> Forall2 (fun a b => fst a = Some (fst b) /\ is_value (snd a) (snd b)) mm all ->
  field_is (last_ones all) key R o -> (exists u n b, In (Some key, u) mm /\ is_value u n /\ R n b /\ o = Some b) \/ (~ In key (keys_of mm) /\ o = None).
Proof.
  intros Nd H. rewrite last_id by (rewrite <- (object_names is_value mm all H); exact Nd). intros [(n & b & Hh & Hr & ->)|(Hn & ->)].
  - left. apply holds_in in Hh. destruct (f2_r _ _ _ _ H Hh) as ([key' u] & Hu & E & Hv). cbn in E, Hv. subst key'. eauto 8.
  - right. split; [|reflexivity]. now rewrite (object_names is_value mm all H).
Qed.
Lemma yaml_field {B} mm r key (R : node F -> B -> Prop) o : key = chars "routeKey" \/ key = chars "authStrategy" ->
  Forall2 (fun a b => fst a = fst b /\ exists ps, is_text (snd a) ps /\ snd b = NSub F ps)
      (filter (fun e => text_eqb (fst e) (chars "routeKey") || text_eqb (fst e) (chars "authStrategy")) (entries_of mm)) r ->
  field_is r key R o -> (exists u ps b, In (Some key, u) mm /\ is_text u ps /\ R (NSub F ps) b /\ o = Some b) \/ (~ In key (keys_of mm) /\ o = None).
Proof.
  intros Hk H [(n & b & Hh & Hr & ->)|(Hn & ->)].
  - left. apply holds_in in Hh. destruct (f2_r _ _ _ _ H Hh) as ([key' u] & Hu & E & ps & Hp & Es). cbn in E, Hp, Es. subst key' n. apply filter_In in Hu. destruct Hu as [Hu _]. apply entries_in in Hu. eauto 8.
  - right. split; [|reflexivity]. intros Hi. apply keys_in in Hi. destruct Hi as (u & Hu). apply entries_in in Hu.
    assert (Hf : In (key, u) (filter (fun e => text_eqb (fst e) (chars "routeKey") || text_eqb (fst e) (chars "authStrategy")) (entries_of mm))).
    { apply filter_In. split; [exact Hu|]. cbn. destruct Hk as [ -> | -> ]; reflexivity. }
    destruct (f2_l _ _ _ _ H Hf) as ([key' n] & Hn' & E & _). cbn in E. subst key'. apply Hn. apply in_map_iff. exists (key, n). auto.
Qed.
Lemma lit_text t u : txt [Lit t] u -> u = t.
Proof. intros (ts & Ht & ->). inversion Ht as [|? ? ? ? Hp Hr]; subst. inversion Hr; subst. cbn in Hp. subst. cbn. now rewrite app_nil_r. Qed.
Lemma literal_parts v t ps : literals v -> v = YStr t -> is_text v ps -> ps = [Lit t].
Proof. intros L -> (u & [= <-] & Hp). rewrite (C51_plain_text k t (L t (in_here _))) in Hp. now injection Hp. Qed.
Lemma fields_agree {B} mm all r key (R : node F -> B -> Prop) o o' : portable (YMap mm) -> literals (YMap mm) -> key = chars "routeKey" \/ key = chars "authStrategy" ->
  (forall t b b', R (NScalar F (SStr F t)) b -> R (NSub F [Lit t]) b' -> b = b') ->
  Forall2 (fun a b => fst a = Some (fst b) /\ is_value (snd a) (snd b)) mm all ->
  Forall2 (fun a b => fst a = fst b /\ exists ps, is_text (snd a) ps /\ snd b = NSub F ps)
      (filter (fun e => text_eqb (fst e) (chars "routeKey") || text_eqb (fst e) (chars "authStrategy")) (entries_of mm)) r ->
  field_is (last_ones all) key R o -> field_is r key R o' -> o = o'.
Proof.
  intros P L Hk HR Hj Hy Fj Fy. pose proof (one_each_keys _ (proj1 P)) as Nd. destruct (json_field mm all key R o Nd Hj Fj) as [(u & n & b & Hu & Hn & Hb & ->)|(Hn & ->)];
    destruct (yaml_field mm r key R o' Hk Hy Fy) as [(u' & ps & b' & Hu' & Hp & Hb' & ->)|(Hn' & ->)].
  - rewrite (keys_once _ _ _ _ Nd Hu' Hu) in Hp. destruct Hp as (t & E & Hp). assert (Hp' : is_text u ps) by (exists t; auto).
    rewrite (value_text u t n (portable_map _ _ _ _ P Hu) E Hn) in Hb. rewrite (literal_parts u t ps (literals_map _ _ _ L Hu) E Hp') in Hb'. f_equal. exact (HR t b b' Hb Hb').
  - elim Hn'. apply keys_in. eauto.
  - elim Hn. apply keys_in. eauto.
  - reflexivity.
Qed.
Lemma protocol_agree v : portable v -> literals v -> agree is_value (is_protocol F k) (protocol_is F parse_f64 env) v.
Proof.
  intros P L a b c c' Ja [Yb|(m & w & -> & (u & Hu & mm & -> & r & -> & Hr) & ->)] Ra Rb; [exact (plain_protocol_agree v P a b c c' Ja Yb Ra Rb)|].
  destruct Rb as [(t & [X|(ps & X & _)] & _)|(m1 & w1 & key & how & E1 & H1 & K1 & K2 & ->)]; [discriminate..|]. injection E1 as <-. apply holds_in in H1. destruct H1 as [[= <-]|[]].
  inversion Ja as [| | | | |m' all Hall]; subst. destruct Ra as [(t & [X|(ps & X & _)] & _)|(m2 & w2 & key' & how' & E2 & H2 & G1 & G2 & ->)]; [discriminate..|]. injection E2 as <-.
  pose proof (one_each_keys _ (proj1 P)) as Nd. rewrite last_id in H2 by (rewrite <- (object_names is_value m all Hall); exact Nd). apply holds_in in H2.
  destruct (f2_r _ _ _ _ Hall H2) as ([kk u'] & Hu' & E & Hv). cbn in E, Hv. subst kk. rewrite (keys_once _ _ _ _ Nd Hu' Hu) in Hv. inversion Hv as [| | | | |m' all' Hall']; subst.
  assert (P' : portable (YMap mm)) by (eapply portable_map; eassumption). assert (L' : literals (YMap mm)) by (eapply literals_map; eassumption).
  f_equal; [eapply (fields_agree mm all' r (chars "routeKey")) with (R := fun v t => scalar_is F parse_f64 env v (SStr F t))|eapply (fields_agree mm all' r (chars "authStrategy")) with (R := node_choice_is F env strategy_names)]; try eassumption; auto.
  - intros t x y [Hx|(ps & Hx & _)] [Hy|(ps' & Hy & Hs)]; try discriminate. injection Hx as <-. injection Hy as <-. apply lit_scalar in Hs. now injection Hs.
  - intros t x y Hx (t' & [Hy|(ps & Hy & Ht)] & Hi); [discriminate|]. injection Hy as <-. apply lit_text in Ht. subst t'. apply node_choice in Hx; [|exact strategy_unique]. exact (names_unique _ strategy_unique _ _ _ Hx Hi).
Qed.
Lemma api_agree v : portable v -> agree (json_api F parse_f64 k json_text) (is_mapping (is_api F k)) (api_is F parse_f64 env) v.
Proof.
  intros P a b [c1 c2 c3 c4 c5] [d1 d2 d3 d4 d5] (_ & J1 & J2 & J3 & J4 & J5) (m & -> & Y1 & Y2 & Y3 & Y4 & Y5 & _) (R1 & R2 & R3 & R4 & R5) (S1 & S2 & S3 & S4 & S5).
  prep P. f_equal; [| | | |fld J5 Y5 R5 S5].
  - refine (req_def Nd (fun w Hw => _) J1 Y1 R1 S1). apply agree_seq. intros l x -> Hx. apply protocol_agree; [eapply portable_seq; [exact (Q _ _ Hw)|exact Hx]|].
    eapply literals_seq; [eapply free_literals; [exact P| |exact Hw]|exact Hx]. clear. cbn. tauto.
  - refine (opt_len Nd _ _ (fun w Hw => cors_choice_agree w (Q _ w Hw)) J2 Y2 R2 S2).
    + intros [(t & [=])|(x & [=])].
    + intros w x Hw [(ps & (t & -> & _) & _)|(y & Hy & _)]; [left; eauto|right]. eapply struct_map; [exact cors_structs| |exact Hy].
      destruct P as (_ & _ & _ & P & _). eapply P; [|apply member_top; exact Hw]. clear. cbn. tauto.
  - exact (opt_opt Nd (null_mapping _) (fun w Hw => domain_agree w (Q _ w Hw)) J3 Y3 R3 S3).
  - exact (opt_opt Nd (null_mapping _) (fun w Hw => auth_agree w (Q _ w Hw)) J4 Y4 R4 S4).
Qed.
(** Metadata *)
Lemma metadata_agree v : portable v -> agree (json_metadata F parse_f64 k json_text) (is_mapping (is_metadata F parse_f64 k)) (metadata_is F parse_f64 env) v.
Proof.
  intros P a b [c1 c2 c3] [d1 d2 d3] (_ & J1 & J2 & J3) (m & -> & Y1 & Y2 & Y3 & _) (R1 & R2 & R3) (S1 & S2 & S3). prep P. f_equal; [fld J1 Y1 R1 S1| |].
  - refine (opt_len Nd _ _ (fun w Hw => _) J2 Y2 R2 S2).
    + intros (x & [=]).
    + intros w x Hw (mm & all & -> & _). now exists mm.
    + apply agree_object; [apply (Q _ _ Hw)|]. intros mm key u -> Hu. apply scalar_agree; [eapply portable_map; [exact (Q _ _ Hw)|exact Hu]|].
      eapply literals_map; [eapply free_literals; [exact P| |exact Hw]|exact Hu]. clear. cbn. tauto.
  - assert (B : forall o : option (list (text * text)), both (named (@eq text)) o o). { intros [l|]; constructor. induction l; constructor; auto. }
    subst c3 d3. refine (opt_len Nd _ _ (fun w Hw => _) J3 Y3 (B _) (B _)).
    + intros (x & [=]).
    + intros w x Hw (mm & all & -> & _). now exists mm.
    + apply (agree_object is_string is_string eq); [apply (Q _ _ Hw)|]. intros mm key u -> Hu x y z z' -> [= ->] <- <-. reflexivity.
Qed.
(** Workflows *)
Lemma wait_agree v : portable v -> agree (json_wait k) (is_mapping (is_wait k)) (wait_is env) v.
Proof. intros P a b [c1 c2] [d1 d2] (_ & J1 & J2) (m & -> & Y1 & Y2) (R1 & R2) (S1 & S2). prep P. f_equal; [fld J1 Y1 R1 S1|fld J2 Y2 R2 S2]. Qed.
Lemma failure_agree v : portable v -> agree (json_failure k) (is_mapping (is_failure k)) (failure_is env) v.
Proof. intros P a b [c1 c2] [d1 d2] (_ & J1 & J2) (m & -> & Y1 & Y2) (R1 & R2) (S1 & S2). prep P. f_equal; [fld J1 Y1 R1 S1|fld J2 Y2 R2 S2]. Qed.
Lemma retry_agree v : portable v -> agree (json_retry F parse_f64 k json_text) (is_mapping (is_retry F parse_f64 k)) (retry_is F parse_f64 env) v.
Proof.
  intros P a b [c1 c2 c3 c4 c5 c6] [d1 d2 d3 d4 d5 d6] (_ & J1 & J2 & J3 & J4 & J5 & J6) (m & -> & Y1 & Y2 & Y3 & Y4 & Y5 & Y6) (R1 & R2 & R3 & R4 & R5 & R6) (S1 & S2 & S3 & S4 & S5 & S6).
  prep P. f_equal; [fld J1 Y1 R1 S1|fld J2 Y2 R2 S2|fld J3 Y3 R3 S3|fld J4 Y4 R4 S4|fld J5 Y5 R5 S5|fld J6 Y6 R6 S6].
Qed.
Lemma catch_agree v : portable v -> agree (json_catch k) (is_mapping (is_catch k)) (catch_is env) v.
Proof.
  intros P a b [c1 c2 c3] [d1 d2 d3] (_ & J1 & J2 & J3) (m & -> & Y1 & Y2 & Y3) (R1 & R2 & R3) (S1 & S2 & S3). prep P.
  f_equal; [fld J1 Y1 R1 S1|fld J2 Y2 R2 S2|fld J3 Y3 R3 S3].
Qed.
Lemma condition_agree v : portable v -> agree (json_condition F parse_f64 k json_text) (is_mapping (is_condition F parse_f64 k)) (condition_is F parse_f64 env) v.
Proof.
  intros P a b [c1 c2] [d1 d2] (_ & J1 & J2) (m & -> & Y1 & Y2) (R1 & R2) (S1 & S2). prep P. f_equal; [|fld J2 Y2 R2 S2].
  refine (req_req Nd (fun w Hw => _) J1 Y1 R1 S1). apply agree_seq. intros l x -> Hx. apply value_agree; [eapply portable_seq; [exact (Q _ _ Hw)|exact Hx]|].
  eapply literals_seq; [eapply free_literals; [exact P| |exact Hw]|exact Hx]. clear. cbn. tauto.
Qed.
(** A list of objects under a key of the document *)
Lemma objects_agree {A C} m key w (J : yaml -> A -> Prop) Y (R : A -> C -> Prop) : portable (YMap m) -> In key list_keys -> In (Some key, w) m -> structs J ->
  (forall l u, w = YSeq l -> In u l -> agree J (is_mapping Y) R u) -> agree (is_array J) (is_list Y) (Forall2 R) w.
Proof.
  intros P Hk Hw S G. apply agree_list; [exact S| |exact G]. intros l u -> Hu. eapply lists_objects; eassumption.
Qed.
Lemma condition_structs : structs (json_condition F parse_f64 k json_text). Proof. eapply struct_structs. intros v x H. apply H. Qed.
Lemma rule_structs : structs (json_rule F parse_f64 k json_text). Proof. eapply struct_structs. intros v x H. apply H. Qed.
Lemma retry_structs : structs (json_retry F parse_f64 k json_text). Proof. eapply struct_structs. intros v x H. apply H. Qed.
Lemma catch_structs : structs (json_catch k). Proof. eapply struct_structs. intros v x H. apply H. Qed.
Lemma machine_structs R : structs (json_machine F k R). Proof. eapply struct_structs. intros v x H. apply H. Qed.
Lemma rule_agree v : portable v -> agree (json_rule F parse_f64 k json_text) (is_mapping (is_rule F parse_f64 k)) (rule_is F parse_f64 env) v.
Proof.
  intros P a b [c1 c2 c3 c4 c5] [d1 d2 d3 d4 d5] (_ & J1 & J2 & J3 & J4 & J5) (m & -> & Y1 & Y2 & Y3 & Y4 & Y5 & _) (R1 & R2 & R3 & R4 & R5) (S1 & S2 & S3 & S4 & S5).
  prep P. f_equal; [| | | |fld J5 Y5 R5 S5].
  - refine (opt_opt Nd (null_list _) (fun w Hw => _) J1 Y1 R1 S1). eapply objects_agree; [exact P| |exact Hw|exact condition_structs|]; [clear; cbn; tauto|].
    intros l u -> Hu. apply condition_agree. eapply portable_seq; [exact (Q _ _ Hw)|exact Hu].
  - refine (opt_opt Nd (null_list _) (fun w Hw => _) J2 Y2 R2 S2). eapply objects_agree; [exact P| |exact Hw|exact condition_structs|]; [clear; cbn; tauto|].
    intros l u -> Hu. apply condition_agree. eapply portable_seq; [exact (Q _ _ Hw)|exact Hu].
  - exact (opt_opt Nd (null_mapping _) (fun w Hw => condition_agree w (Q _ w Hw)) J3 Y3 R3 S3).
  - exact (opt_opt Nd (null_mapping _) (fun w Hw => condition_agree w (Q _ w Hw)) J4 Y4 R4 S4).
Qed.
Lemma type_unique : NoDup (map fst type_names). Proof. repeat constructor; cbn; intuition discriminate. Qed.
Lemma type_is_unique ps c c' : type_is env ps c -> type_is env ps c' -> c = c'.
Proof.
  intros (t & Ht & Hc) (t' & Ht' & Hc'). rewrite (txt_unique ps t' t Ht' Ht) in Hc'. destruct Hc as [Hc|[Hn ->]], Hc' as [Hc'|[Hn' ->]]; [exact (names_unique _ type_unique t c c' Hc Hc')| | |reflexivity].
  - elim (Hn' _ Hc).
  - elim (Hn _ Hc').
Qed.
Lemma branch_agree v : portable v -> (forall m key u mm name w, v = YMap m -> In (key, u) m -> u = YMap mm -> In (Some name, w) mm -> agree (json_state F parse_f64 k json_text) (is_state F parse_f64 k) (state_is F parse_f64 env) w) ->
  agree (json_machine F k (json_state F parse_f64 k json_text)) (is_mapping (is_branch F parse_f64 k)) (workflow_is F parse_f64 env) v.
Proof.
  intros P G a b [c1 c2] [d1 d2] (_ & J1 & J2) (m & -> & Y1 & Y2) (R1 & R2) (S1 & S2). prep P. f_equal; [fld J1 Y1 R1 S1|].
  refine (req_def Nd (fun w Hw => _) J2 Y2 R2 S2). apply agree_object; [apply (Q _ _ Hw)|]. intros mm name u -> Hu. eapply G; [reflexivity|exact Hw|reflexivity|exact Hu].
Qed.
Lemma rstate_eq c1 c2 c3 c4 c5 c6 c7 c8 c9 c10 c11 c12 c13 c14 c15 c16 d1 d2 d3 d4 d5 d6 d7 d8 d9 d10 d11 d12 d13 d14 d15 d16 : c1 = d1 -> c2 = d2 -> c3 = d3 -> c4 = d4 -> c5 = d5 -> c6 = d6 -> c7 = d7 -> c8 = d8 -> c9 = d9 -> c10 = d10 -> c11 = d11 -> c12 = d12 -> c13 = d13 -> c14 = d14 -> c15 = d15 -> c16 = d16 ->
  mk_rstate F c1 c2 c3 c4 c5 c6 c7 c8 c9 c10 c11 c12 c13 c14 c15 c16 = mk_rstate F d1 d2 d3 d4 d5 d6 d7 d8 d9 d10 d11 d12 d13 d14 d15 d16.
Proof. intros. subst. reflexivity. Qed.
Lemma state_agree v : portable v -> agree (json_state F parse_f64 k json_text) (is_state F parse_f64 k) (state_is F parse_f64 env) v.
Proof.
  induction v as [v IHs IHm] using yaml_deep. intros P a b [c1 c2 c3 c4 c5 c6 c7 c8 c9 c10 c11 c12 c13 c14 c15 c16] [d1 d2 d3 d4 d5 d6 d7 d8 d9 d10 d11 d12 d13 d14 d15 d16] J Y R S.
  destruct J as [v a _ J1 J2 J3 J4 J5 J6 J7 J8 J9 J10 J11 J12 J13 J14 J15 J16]. destruct Y as [m b _ Y1 _ Y2 Y3 Y4 Y5 Y6 Y7 Y8 Y9 Y10 Y11 Y12 Y13 Y14 Y15 Y16].
  destruct R as [R1 R2 R3 R4 R5 R6 R7 R8 R9 R10 R11 R12 R13 R14 R15 R16]. destruct S as [S1 S2 S3 S4 S5 S6 S7 S8 S9 S10 S11 S12 S13 S14 S15 S16].
  pose proof (one_each_keys _ (proj1 P)) as Nd; pose proof (fun key w => portable_map json_text _ (Some key) w P) as Q.
  cbn [rs_type rs_description rs_input rs_result_path rs_output rs_payload rs_next rs_end rs_decisions rs_result rs_timeout rs_wait rs_failure rs_branches rs_retry rs_catch] in *.
  apply rstate_eq; [|fld J2 Y2 R2 S2|fld J3 Y3 R3 S3|fld J4 Y4 R4 S4|fld J5 Y5 R5 S5| |fld J7 Y7 R7 S7|fld J8 Y8 R8 S8| | |fld J11 Y11 R11 S11| | | | |].
  - refine (req_req Nd (fun w Hw => _) J1 Y1 R1 S1). apply text_agree, type_is_unique.
  - refine (opt_opt Nd (null_mapping _) (fun w Hw => _) J6 Y6 R6 S6). apply agree_object; [apply (Q _ _ Hw)|]. intros mm key u -> Hu. apply value_agree; [eapply portable_map; [exact (Q _ _ Hw)|exact Hu]|].
    eapply literals_map; [eapply free_literals; [exact P| |exact Hw]|exact Hu]. clear. cbn. tauto.
  - refine (opt_opt Nd (null_list _) (fun w Hw => _) J9 Y9 R9 S9). eapply objects_agree; [exact P| |exact Hw|exact rule_structs|]; [clear; cbn; tauto|].
    intros l u -> Hu. apply rule_agree. eapply portable_seq; [exact (Q _ _ Hw)|exact Hu].
  - refine (opt_opt Nd null_node (fun w Hw => _) J10 Y10 R10 S10). apply value_agree; [exact (Q _ _ Hw)|]. eapply free_literals; [exact P| |exact Hw]. clear. cbn. tauto.
  - exact (opt_opt Nd (null_mapping _) (fun w Hw => wait_agree w (Q _ w Hw)) J12 Y12 R12 S12).
  - exact (opt_opt Nd (null_mapping _) (fun w Hw => failure_agree w (Q _ w Hw)) J13 Y13 R13 S13).
  - refine (opt_opt Nd (null_list _) (fun w Hw => _) J14 Y14 R14 S14). eapply objects_agree; [exact P| |exact Hw|exact (machine_structs _)|]; [clear; cbn; tauto|].
    intros l u -> Hu. assert (Pu : portable u) by (eapply portable_seq; [exact (Q _ _ Hw)|exact Hu]). apply (branch_agree u Pu). intros mm key x xx name s -> Hx -> Hs.
    eapply (IHm m _ (YSeq l) s eq_refl Hw).
    + econstructor; [exact Hu|]. econstructor; [exact Hx|]. econstructor; [exact Hs|constructor].
    + eapply portable_map; [eapply portable_map; [exact Pu|exact Hx]|exact Hs].
  - refine (opt_opt Nd (null_list _) (fun w Hw => _) J15 Y15 R15 S15). eapply objects_agree; [exact P| |exact Hw|exact retry_structs|]; [clear; cbn; tauto|].
    intros l u -> Hu. apply retry_agree. eapply portable_seq; [exact (Q _ _ Hw)|exact Hu].
  - refine (opt_opt Nd (null_list _) (fun w Hw => _) J16 Y16 R16 S16). eapply objects_agree; [exact P| |exact Hw|exact catch_structs|]; [clear; cbn; tauto|].
    intros l u -> Hu. apply catch_agree. eapply portable_seq; [exact (Q _ _ Hw)|exact Hu].
Qed.
Lemma workflow_agree v : portable v -> agree (json_workflow F parse_f64 k json_text) (is_mapping (is_workflow F parse_f64 k)) (workflow_is F parse_f64 env) v.
Proof.
  intros P a b c c' J (m & -> & _ & Y). apply (branch_agree (YMap m) P) with (a := a) (b := b); [|exact J|exists m; auto].
  intros m' key u mm name w [= <-] Hu -> Hw. apply state_agree. eapply portable_map; [eapply portable_map; [exact P|exact Hu]|exact Hw].
Qed.

(** Specs *)
Lemma spec_agree ty m s s' r r' : portable (YMap m) -> (ty = TTopic \/ ty = TQueue -> In (chars "fifo") (keys_of m)) ->
  json_spec F parse_f64 k json_text ty (YMap m) s -> is_spec F parse_f64 k ty m s' -> spec_is F parse_f64 env s r -> spec_is F parse_f64 env s' r' -> r = r'.
Proof.
  intros P Hf J Y R S. assert (E : forall {A} (Y : _ -> A -> Prop) x, Y m x -> is_mapping Y (YMap m) x) by (intros; exists m; auto).
  assert (G : ty = TTopic \/ ty = TQueue -> says_fifo (YMap m)) by (intros T m' [= <-]; auto).
  destruct ty; destruct J as (x & J & ->), Y as (y & Y & ->); inversion R as [? c Rc|? c Rc|? c Rc|? c Rc|? c Rc|? c Rc|? c Rc|? c Rc|? c Rc|? c Rc]; subst;
    inversion S as [? d Sd|? d Sd|? d Sd|? d Sd|? d Sd|? d Sd|? d Sd|? d Sd|? d Sd|? d Sd]; subst; f_equal.
  all: first [ exact (handler_agree _ P x y c d J (E _ _ _ Y) Rc Sd) | exact (api_agree _ P x y c d J (E _ _ _ Y) Rc Sd) | exact (consumer_agree _ P x y c d J (E _ _ _ Y) Rc Sd)
             | exact (schedule_agree _ P x y c d J (E _ (fun m x => required m (chars "schedule") is_text x) _ Y) Rc Sd) | exact (shared_agree _ P x y c d J (E _ _ _ Y) Rc Sd) | exact (workflow_agree _ P x y c d J (E _ _ _ Y) Rc Sd)
             | exact (config_agree _ P x y c d J (E _ _ _ Y) Rc Sd) | exact (bucket_agree _ P x y c d J (E _ _ _ Y) Rc Sd)
             | exact (topic_agree _ P (G (or_introl eq_refl)) x y c d J (E _ _ _ Y) Rc Sd) | exact (queue_agree _ P (G (or_intror eq_refl)) x y c d J (E _ _ _ Y) Rc Sd) ].
Qed.
End Params.
