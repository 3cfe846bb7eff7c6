From Verif Require Import Base Json Chars Value Bytes TemplateFuncModel TemplateFuncSpec.
Local Open Scope list_scope.

(** ** Equality *)
Lemma SFeqb_spec x y : SFeqb x y = true <-> same_num (NFloat x) (NFloat y).
Proof.
  split.
  - unfold SFeqb. destruct x as [a|a| |a m e], y as [b|b| |b m' e']; cbn [SFcompare]; try discriminate; try (destruct a; discriminate); try (destruct b; discriminate).
    + intros _. apply sn_zero.
    + destruct a, b; try discriminate; intros _; now apply sn_float.
    + destruct a, b; try discriminate; destruct (e ?= e')%Z eqn:E; try discriminate; apply Z.compare_eq in E; subst e';
        destruct (Pos.compare_cont Eq m m') eqn:M; try discriminate; apply Pos.compare_eq in M; subst m'; intros _; now apply sn_float.
  - intros H. inversion H; subst; [|reflexivity]. unfold SFeqb. destruct y as [b|b| |b m e]; cbn [SFcompare]; [reflexivity|destruct b; reflexivity|congruence|].
    assert (M : Pos.compare_cont Eq m m = Eq) by apply Pos.compare_refl. rewrite Z.compare_refl, M. destruct b; reflexivity.
Qed.
Lemma num_eqb_spec a b : num_eqb a b = true <-> same_num a b.
Proof.
  destruct a, b; cbn [num_eqb].
  - rewrite Z.eqb_eq. split; [intros ->; constructor|]. inversion 1; auto.
  - split; [discriminate|]. inversion 1.
  - split; [discriminate|]. inversion 1.
  - apply SFeqb_spec.
Qed.
Lemma value_eqb_arr l r : value_eqb (VArr l) (VArr r) = match l, r with [], [] => true | x :: l', y :: r' => value_eqb x y && value_eqb (VArr l') (VArr r') | _, _ => false end.
Proof. destruct l, r; reflexivity. Qed.
Lemma value_eqb_obj l r : value_eqb (VObj l) (VObj r) = match l, r with [], [] => true | (k, x) :: l', (k', y) :: r' => text_eqb k k' && value_eqb x y && value_eqb (VObj l') (VObj r') | _, _ => false end.
Proof. destruct l as [|[k x] l], r as [|[k' y] r]; reflexivity. Qed.
Lemma value_eqb_spec a : forall b, value_eqb a b = true <-> same_value a b.
Proof.
  induction a as [|x|n|t|l IH|m IH] using value_nested; intros b.
  - destruct b; cbn; split; intros H; try discriminate; try constructor; inversion H.
  - destruct b; cbn; try (split; [discriminate|inversion 1]). rewrite Bool.eqb_true_iff. split; [intros ->; constructor|inversion 1; reflexivity].
  - destruct b; cbn; try (split; [discriminate|inversion 1]). rewrite num_eqb_spec. split; [now constructor|inversion 1; assumption].
  - destruct b; cbn; try (split; [discriminate|inversion 1]). rewrite text_eqb_eq. split; [intros ->; constructor|inversion 1; reflexivity].
  - destruct b as [|?|?|?|r|?]; try (cbn; split; [discriminate|inversion 1]). transitivity (same_list l r); [|split; [now constructor|inversion 1; assumption]].
    revert r. induction IH as [|x l Hx Hl IHl]; intros [|y r]; rewrite value_eqb_arr; try (split; [discriminate|inversion 1]).
    + split; constructor.
    + rewrite andb_true_iff, Hx, IHl. split; [intros [? ?]; now constructor|inversion 1; auto].
  - destruct b as [|?|?|?|?|r]; try (cbn; split; [discriminate|inversion 1]). transitivity (same_entries m r); [|split; [now constructor|inversion 1; assumption]].
    revert r. induction IH as [|[k x] l Hx Hl IHl]; intros [|[k' y] r]; rewrite value_eqb_obj; try (split; [discriminate|inversion 1]).
    + split; constructor.
    + cbn [snd] in Hx. rewrite !andb_true_iff, text_eqb_eq, Hx, IHl. split; [intros [[-> ?] ?]; now constructor|inversion 1; auto].
Qed.
Scheme sv_i := Induction for same_value Sort Prop
with sl_i := Induction for same_list Sort Prop
with se_i := Induction for same_entries Sort Prop.
Combined Scheme same_ind from sv_i, sl_i, se_i.
Lemma same_num_trans a b c : same_num a b -> same_num b c -> same_num a c.
Proof. destruct 1; inversion 1; subst; try constructor; auto. Qed.
Lemma same_trans_all : (forall a b, same_value a b -> forall c, same_value b c -> same_value a c) /\
  (forall a b, same_list a b -> forall c, same_list b c -> same_list a c) /\ (forall a b, same_entries a b -> forall c, same_entries b c -> same_entries a c).
Proof.
  apply (same_ind (fun a b _ => forall c, same_value b c -> same_value a c) (fun a b _ => forall c, same_list b c -> same_list a c) (fun a b _ => forall c, same_entries b c -> same_entries a c));
    intros; try (match goal with H : same_value _ ?c |- same_value _ ?c => inversion H | H : same_list _ ?c |- same_list _ ?c => inversion H | H : same_entries _ ?c |- same_entries _ ?c => inversion H end; subst); constructor; eauto using same_num_trans.
Qed.
Lemma same_value_trans a b c : same_value a b -> same_value b c -> same_value a c.
Proof. intros H. apply (proj1 same_trans_all a b H). Qed.

(** ** Lists *)
Lemma existsb_same l v : existsb (fun e => value_eqb e v) l = true <-> exists e, In e l /\ same_value e v.
Proof. rewrite existsb_exists. split; intros (e & H1 & H2); exists e; split; auto; now apply value_eqb_spec. Qed.
Lemma keep_unique_acc l : forall before unique,
  (forall x, (exists e, In e before /\ same_value e x) <-> (exists e, In e unique /\ same_value e x)) ->
  exists u, fold_left (fun unique e => if existsb (fun u => value_eqb u e) unique then unique else unique ++ [e]) l unique = unique ++ u /\ first_ones before l u.
Proof.
  induction l as [|x l IH]; intros before unique H; cbn [fold_left].
  - exists []. rewrite app_nil_r. split; [reflexivity|constructor].
  - destruct (existsb (fun u => value_eqb u x) unique) eqn:E.
    + apply existsb_same in E. pose proof E as E'. apply H in E'. destruct E' as (e & He & Hs).
      destruct (IH (before ++ [x]) unique) as (u & Hu & Hf).
      * intros y. rewrite <- H. split; intros (z & Hz & Hy).
        -- apply in_app_or in Hz. destruct Hz as [Hz|[<-|[]]]; [eauto|]. exists e. split; [exact He|]. eapply same_value_trans; eassumption.
        -- exists z. split; [apply in_or_app; now left|exact Hy].
      * exists u. split; [exact Hu|]. eapply fo_drop; eassumption.
    + destruct (IH (before ++ [x]) (unique ++ [x])) as (u & Hu & Hf).
      * intros y. specialize (H y). split; intros (z & Hz & Hy); apply in_app_or in Hz; destruct Hz as [Hz|[<-|[]]].
        -- destruct (proj1 H) as (w & Hw & Hw'); [eauto|]. exists w. split; [apply in_or_app; now left|exact Hw'].
        -- exists x. split; [apply in_or_app; right; now left|exact Hy].
        -- destruct (proj2 H) as (w & Hw & Hw'); [eauto|]. exists w. split; [apply in_or_app; now left|exact Hw'].
        -- exists x. split; [apply in_or_app; right; now left|exact Hy].
      * exists (x :: u). rewrite Hu, <- app_assoc. split; [reflexivity|]. apply fo_keep; [|exact Hf]. intros e He Hs.
        assert (E' : existsb (fun u => value_eqb u x) unique = true) by (apply existsb_same, H; eauto). congruence.
Qed.
Lemma keep_unique_first l : first_ones [] l (keep_unique l).
Proof.
  destruct (keep_unique_acc l [] []) as (u & Hu & Hf); [intros x; split; intros (e & [] & _)|]. unfold keep_unique. rewrite Hu. exact Hf.
Qed.
Lemma chunks_ok {A} n k (l : list A) : 1 <= k -> length l <= n -> chunked (Z.of_nat k) l (chunks n k l).
Proof.
  intros Hk. revert l. induction n as [|n IH]; intros l Hl.
  - destruct l; [|cbn in Hl; lia]. cbn. split; [reflexivity|]. intros [|? ?] c a E; discriminate.
  - destruct l as [|x l]; [cbn; split; [reflexivity|]; intros [|? ?] c a E; discriminate|].
    change (chunks (S n) k (x :: l)) with (firstn k (x :: l) :: chunks n k (skipn k (x :: l))). destruct (IH (skipn k (x :: l))) as [H1 H2]; [rewrite skipn_length; cbn [length] in *; lia|].
    split; [cbn [concat]; rewrite H1; apply firstn_skipn|]. intros [|y before] c after E; cbn [app] in E; injection E as E0 E1.
    + subst c. destruct k as [|k]; [lia|]. split; [discriminate|]. split; [apply inj_le, firstn_le_length|]. intros Ha. f_equal. apply firstn_length_le.
      rewrite <- E1 in Ha. destruct (Nat.le_gt_cases (S k) (length (x :: l))) as [|Hlt]; [assumption|exfalso]. rewrite skipn_all2 in Ha by lia. destruct n; now elim Ha.
    + eapply H2. exact E1.
Qed.
Lemma chunked_whole {A} z (l : list A) : (1 <= z)%Z -> (Z.of_nat (length l) <= z)%Z -> chunked z l (match l with [] => [] | _ => [l] end).
Proof.
  intros Hz Hl. destruct l as [|x l]; (split; [cbn; try rewrite app_nil_r; reflexivity|]); intros [|y [|? ?]] c a E; try discriminate. injection E as <- <-. split; [discriminate|]. split; [exact Hl|]. intros Ha. now elim Ha.
Qed.

(** ** Splitting *)
Lemma starts_app p r : starts_with p (p ++ r) = true.
Proof. apply starts_with_spec. now exists r. Qed.
Lemma pieces_skip sep n : forall t acc, n <= length t -> pieces sep n acc t = pieces sep 0 acc (skipn n t).
Proof. induction n as [|n IH]; intros t acc H; [reflexivity|]. destruct t as [|c t]; [cbn in H; lia|]. cbn [pieces skipn]. apply IH. cbn in H. lia. Qed.
Lemma occurs_cons sep c t : occurs sep (c :: t) <-> starts_with sep (c :: t) = true \/ occurs sep t.
Proof.
  rewrite starts_with_spec. split.
  - intros ([|d a] & b & H); [left; exists b; exact H|right]. injection H as -> ->. now exists a, b.
  - intros [(r & H)|(a & b & ->)]; [exists [], r; exact H|]. now exists (c :: a), b.
Qed.
Lemma app_eq_len (u : text) : forall a x y, length u = length a -> u ++ x = a ++ y -> a = u /\ y = x.
Proof.
  induction u as [|c u IH]; intros [|d a] x y Hl H; try discriminate; [auto|]. injection Hl as Hl. injection H as -> H. destruct (IH a x y Hl H) as [-> ->]. auto.
Qed.
(** Nothing of [acc] (reversed) starts an occurrence in what is scanned. *)
Lemma pieces_cut sep : sep <> [] -> forall n t acc, length t <= n ->
  (forall a b, rev acc ++ t = a ++ sep ++ b -> length acc <= length a) -> cut sep (rev acc ++ t) (pieces sep 0 acc t).
Proof.
  intros Hs. induction n as [|n IH]; intros t acc Hn Ha.
  - destruct t as [|c t]; [|cbn in Hn; lia]. cbn [pieces]. rewrite app_nil_r in *. constructor. intros (a & b & E). specialize (Ha a b E). apply (f_equal (@length N)) in E.
    rewrite rev_length, !app_length in E. destruct sep; [contradiction|]. cbn in E. lia.
  - destruct t as [|c t].
    + cbn [pieces]. rewrite app_nil_r in *. constructor. intros (a & b & E). specialize (Ha a b E). apply (f_equal (@length N)) in E.
      rewrite rev_length, !app_length in E. destruct sep; [contradiction|]. cbn in E. lia.
    + cbn [pieces]. destruct (starts_with sep (c :: t)) eqn:E.
      * apply starts_with_spec in E. destruct E as [r E]. destruct sep as [|s sep]; [contradiction|]. injection E as -> ->.
        replace (length (s :: sep) - 1) with (length sep) by (cbn; lia). rewrite pieces_skip by (rewrite app_length; lia). rewrite skipn_app, skipn_all, Nat.sub_diag. cbn [skipn app].
        change (s :: sep ++ r) with ((s :: sep) ++ r). apply cut_more.
        -- intros a b Hab. rewrite rev_length. apply (Ha a b). exact Hab.
        -- apply (IH r []); [cbn in Hn; rewrite app_length in Hn; lia|]. intros a b _. cbn. lia.
      * replace (rev acc ++ c :: t) with (rev (c :: acc) ++ t) by (cbn; now rewrite <- app_assoc). apply IH; [cbn in Hn; lia|].
        intros a b Hab. cbn [rev length] in *. rewrite <- app_assoc in Hab. cbn in Hab. specialize (Ha a b Hab). destruct (Nat.eq_dec (length a) (length acc)) as [Hl|]; [|lia]. exfalso.
        rewrite <- (rev_length acc) in Hl. assert (X : a = rev acc /\ sep ++ b = c :: t).
        { exact (app_eq_len (rev acc) a (c :: t) (sep ++ b) (eq_sym Hl) Hab). }
        destruct X as [_ X]. rewrite <- X, starts_app in E. discriminate.
Qed.
Lemma split_cut sep t : sep <> [] -> cut sep t (split_text sep t).
Proof. intros H. destruct sep as [|c sep]; [contradiction|]. apply (pieces_cut (c :: sep) H (length t) t []); [lia|]. cbn. intros. lia. Qed.
Lemma cut_nonempty sep t ps : cut sep t ps -> ps <> [].
Proof. destruct 1; discriminate. Qed.
Lemma cut_join sep t ps : cut sep t ps -> join sep ps = t.
Proof. induction 1 as [t H|p rest ps H Hc IH]; [reflexivity|]. pose proof (cut_nonempty _ _ _ Hc) as Hn. destruct ps as [|q ps]; [now elim Hn|]. change (p ++ sep ++ join sep (q :: ps) = p ++ sep ++ rest). now rewrite IH. Qed.
Lemma cut_clean sep t ps : sep <> [] -> cut sep t ps -> Forall (fun p => ~ occurs sep p) ps.
Proof.
  intros Hs. induction 1 as [t H|p rest ps H Hc IH]; constructor; auto. intros (a & b & ->).
  specialize (H a (b ++ sep ++ rest)). rewrite <- !app_assoc in H. specialize (H eq_refl). rewrite !app_length in H. destruct sep; [contradiction|]. cbn in H. lia.
Qed.

(** ** Braces *)
Lemma occurs_braces_cons c t : occurs braces (c :: t) <-> (c = 123%N /\ hd_error t = Some 125%N) \/ occurs braces t.
Proof.
  rewrite occurs_cons. cbn [starts_with braces chars map list_ascii_of_string]. change (chr "{") with 123%N. change (chr "}") with 125%N. split.
  - intros [H|H]; [left|now right]. destruct t as [|d t]; [rewrite andb_false_r in H; discriminate|]. rewrite !andb_true_iff, !N.eqb_eq in H. destruct H as (-> & -> & _). auto.
  - intros [[-> H]|H]; [left|now right]. destruct t as [|d t]; [discriminate|]. injection H as ->. reflexivity.
Qed.
Lemma replace_braces p t rest : ~ occurs braces p -> replace_first braces t (p ++ braces ++ rest) = p ++ t ++ rest.
Proof.
  induction p as [|c p IH]; intros H; [reflexivity|]. cbn [app replace_first].
  destruct (starts_with braces (c :: p ++ braces ++ rest)) eqn:E.
  - exfalso. apply starts_with_spec in E. destruct E as [r E]. cbn [braces chars map list_ascii_of_string app] in E. injection E as -> E. apply H. apply occurs_braces_cons.
    destruct p as [|d p]; [discriminate|]. injection E as -> _. left. auto.
  - f_equal. apply IH. intros Ho. apply H. apply occurs_braces_cons. now right.
Qed.
(** A text with no braces put before does not make a placeholder. *)
Lemma no_braces_app t p : no_braces t -> ~ occurs braces p -> ~ occurs braces (t ++ p).
Proof.
  intros [H1 H2] Hp. induction t as [|c t IH]; [exact Hp|]. cbn [app]. rewrite occurs_braces_cons. intros [[-> _]|H]; [apply H1; now left|]. apply IH; [intros ?; apply H1; now right|intros ?; apply H2; now right|exact H].
Qed.
Lemma occurs_app_braces a t p : ~ occurs braces a -> no_braces t -> ~ occurs braces p -> ~ occurs braces (a ++ t ++ p) \/ (t = [] /\ exists a' p', a = a' ++ [123%N] /\ p = 125%N :: p').
Proof.
  intros Ha Ht Hp. induction a as [|c a IH]; [left; exact (no_braces_app t p Ht Hp)|]. assert (Ha' : ~ occurs braces a) by (intros H; apply Ha, occurs_braces_cons; now right).
  destruct (IH Ha') as [H|(Et & a' & p' & -> & ->)]; [|right; split; [exact Et|]; exists (c :: a'), p'; auto].
  destruct (N.eq_dec c 123) as [->|Hc]; [|left; cbn [app]; rewrite occurs_braces_cons; intros [[-> _]|Ho]; auto].
  destruct a as [|d a].
  - cbn [app]. destruct t as [|e t].
    + destruct p as [|q p]; [left; intros Ho; apply occurs_braces_cons in Ho; destruct Ho as [[_ Ho]|Ho]; [discriminate|auto]|].
      destruct (N.eq_dec q 125) as [->|Hq]; [right; split; [reflexivity|]; exists [], p; auto|]. left. rewrite occurs_braces_cons. intros [[_ Ho]|Ho]; [cbn in Ho; congruence|auto].
    + left. rewrite occurs_braces_cons. intros [[_ Ho]|Ho]; [cbn in Ho; injection Ho as ->; apply (proj2 Ht); now left|auto].
  - left. cbn [app]. rewrite occurs_braces_cons. intros [[_ Ho]|Ho]; [|auto]. cbn in Ho. injection Ho as ->. apply Ha, occurs_braces_cons. left. auto.
Qed.
Lemma no_braces_occurs p : no_braces p -> ~ occurs braces p.
Proof. intros [H _] (a & b & ->). apply H. apply in_or_app. right. now left. Qed.
Lemma no_braces_both a b : no_braces a -> no_braces b -> no_braces (a ++ b).
Proof. intros [H1 H2] [H3 H4]. split; intros H; apply in_app_or in H; tauto. Qed.
Lemma format_loop_fill show_num : forall args ts ps acc,
  Forall2 (fun v t => format_arg show_num v = Some t) args ts -> length ps = length ts ->
  ~ occurs braces acc -> Forall (fun p => ~ occurs braces p) ps -> Forall no_braces ts ->
  (Forall (fun t => t <> []) ts \/ (no_braces acc /\ Forall no_braces ps)) ->
  format_loop show_num (match ps with [] => acc | _ => acc ++ braces ++ join braces ps end) args = Ok (VStr (acc ++ fill ([] :: ps) ts)).
Proof.
  induction args as [|v args IH]; intros ts ps acc Ha Hl Hacc Hps Hts Hor; inversion Ha as [|? t ? ts' Hv Hr]; subst.
  - destruct ps; [|discriminate]. cbn. now rewrite app_nil_r.
  - destruct ps as [|p ps]; [discriminate|]. cbn [format_loop]. rewrite Hv. injection Hl as Hl. inversion Hps as [|? ? Hp Hps']; subst. inversion Hts as [|? ? Ht Hts']; subst.
    rewrite replace_braces by exact Hacc.
    assert (N : ~ occurs braces (acc ++ t ++ p)).
    { destruct (occurs_app_braces acc t p Hacc Ht Hp) as [H|(Et & a' & p' & Ea & Ep)]; [exact H|exfalso]. destruct Hor as [Hor|[H1 _]].
      - inversion Hor; subst. congruence.
      - rewrite Ea in H1. apply (proj1 H1). apply in_or_app. right. now left. }
    assert (O : Forall (fun t => t <> []) ts' \/ (no_braces (acc ++ t ++ p) /\ Forall no_braces ps)).
    { destruct Hor as [Hor|[H1 H2]]; [left; now inversion Hor|right]. inversion H2; subst. split; [|assumption]. repeat apply no_braces_both; assumption. }
    pose proof (IH ts' ps (acc ++ t ++ p) Hr Hl N Hps' Hts' O) as R.
    replace (acc ++ t ++ join braces (p :: ps)) with (match ps with [] => acc ++ t ++ p | _ => (acc ++ t ++ p) ++ braces ++ join braces ps end).
    2:{ destruct ps as [|q ps]; [reflexivity|]. change (join braces (p :: q :: ps)) with (p ++ braces ++ join braces (q :: ps)). now rewrite <- !app_assoc. }
    refine (eq_trans R _). do 2 f_equal. cbn [fill app]. rewrite <- !app_assoc. do 2 f_equal. destruct ts'; cbn [fill app]; [destruct ps; [|discriminate]; now rewrite app_nil_r|reflexivity].
Qed.
(** Pieces without placeholders are the pieces the code counts. *)
Lemma split_join ps : ps <> [] -> Forall (fun p => ~ occurs braces p) ps -> split_text braces (join braces ps) = ps.
Proof.
  assert (K : forall ps acc, Forall (fun p => ~ occurs braces p) ps -> forall p, ~ occurs braces p -> 
     pieces braces 0 acc (match ps with [] => p | _ => p ++ braces ++ join braces ps end) = (rev acc ++ p) :: ps).
  { clear. induction ps as [|q ps IH]; intros acc Hps p Hp.
    - revert acc. induction p as [|c p IHp]; intros acc; [cbn; now rewrite app_nil_r|]. cbn [pieces]. destruct (starts_with braces (c :: p)) eqn:E.
      + exfalso. apply Hp, occurs_cons. now left.
      + rewrite IHp by (intros H; apply Hp, occurs_cons; now right). cbn. now rewrite <- app_assoc.
    - inversion Hps as [|? ? Hq Hps']; subst. revert acc. induction p as [|c p IHp]; intros acc.
      + change (pieces braces 0 acc ([] ++ braces ++ join braces (q :: ps))) with (rev acc :: pieces braces 0 [] (join braces (q :: ps))).
        rewrite app_nil_r. f_equal. replace (join braces (q :: ps)) with (match ps with [] => q | _ => q ++ braces ++ join braces ps end) by (destruct ps; reflexivity). exact (IH [] Hps' q Hq).
      + cbn [app pieces]. destruct (starts_with braces (c :: p ++ braces ++ join braces (q :: ps))) eqn:E.
        * exfalso. apply starts_with_spec in E. destruct E as [r E]. cbn [braces chars map list_ascii_of_string app] in E. injection E as -> E. apply Hp, occurs_braces_cons.
          destruct p as [|d p]; [discriminate|]. injection E as -> _. left. auto.
        * rewrite IHp by (intros H; apply Hp, occurs_cons; now right). cbn. now rewrite <- app_assoc. }
  intros Hn Hps. destruct ps as [|p ps]; [contradiction|]. inversion Hps as [|? ? Hp Hps']; subst. specialize (K ps [] Hps' p Hp). cbn [rev app] in K.
  change (split_text braces (join braces (p :: ps))) with (pieces braces 0 [] (join braces (p :: ps))). destruct ps; exact K.
Qed.
Lemma Forall2_len {A B} (R : A -> B -> Prop) l r : Forall2 R l r -> length l = length r.
Proof. induction 1; cbn; congruence. Qed.
Lemma format_fill show_num ps ts args : Forall2 (fun v t => format_arg show_num v = Some t) args ts -> length ps = S (length ts) ->
  Forall (fun p => ~ occurs braces p) ps -> Forall no_braces ts -> (Forall (fun t => t <> []) ts \/ Forall no_braces ps) ->
  format show_num (VStr (join braces ps) :: args) = Ok (VStr (fill ps ts)).
Proof.
  intros Ha Hl Hps Hts Hor. cbn [format]. rewrite split_join by (try (destruct ps; [discriminate Hl|discriminate]); exact Hps).
  rewrite (Forall2_len _ _ _ Ha), Hl, Nat.sub_succ, Nat.sub_0_r, Nat.eqb_refl. destruct ps as [|p ps]; [discriminate|]. injection Hl as Hl. inversion Hps as [|? ? Hp Hps']; subst.
  replace (join braces (p :: ps)) with (match ps with [] => p | _ => p ++ braces ++ join braces ps end) by (destruct ps; reflexivity).
  rewrite (format_loop_fill show_num args ts ps p Ha Hl Hp Hps' Hts).
  - do 2 f_equal. destruct ts; cbn [fill app]; [now rewrite app_nil_r|reflexivity].
  - destruct Hor as [Hor|Hor]; [now left|right]. now inversion Hor.
Qed.
