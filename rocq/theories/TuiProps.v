(** C132 and C133: the two dialogues.  Model: TuiModel.v.  Vocabulary: TuiSpec.v. *)
From Verif Require Import Base TuiModel TuiSpec.
Open Scope string_scope.
Local Open Scope list_scope.

Section Widgets.
Context {other command L P : Type}.
Variable list_update : L -> msg other -> L * command.
Variable list_width : L -> N -> L.
Variable selected : L -> option string.
Variable picker_update : P -> msg other -> P * command.
Variable picked picked_disabled : P -> msg other -> option string.
Notation init_run := (init_run list_update list_width selected).
Notation init_update := (init_update list_update list_width selected).
Notation languages := (languages list_update list_width).
Notation entered := (entered list_update list_width selected).
Notation never_entered := (never_entered list_update list_width selected).
Notation sel_run := (sel_run list_update selected picker_update picked picked_disabled).
Notation sel_update := (sel_update list_update selected picker_update picked picked_disabled).
Notation sources := (sources list_update).
Notation files := (files picker_update).
Notation source_chosen := (source_chosen list_update selected).

Lemma snoc_inj {A} (a b : list A) x y : a ++ [x] = b ++ [y] -> a = b /\ x = y.
Proof. apply app_inj_tail. Qed.
Lemma snoc_nil {A} (a : list A) x : a ++ [x] <> [].
Proof. destruct a; discriminate. Qed.
Lemma snoc_split {A} (xs : list A) x a y b : xs ++ [x] = a ++ y :: b -> (b = [] /\ xs = a /\ x = y) \/ exists b', b = b' ++ [x] /\ xs = a ++ y :: b'.
Proof.
  intros H. destruct b as [|z b] using rev_ind.
  - left. apply snoc_inj in H. tauto.
  - right. clear IHb. exists b. rewrite app_comm_cons, app_assoc in H. apply snoc_inj in H. destruct H as [-> ->]. auto.
Qed.
Lemma split_len {A} (a a' b b' : list A) : a ++ b = a' ++ b' -> List.length a = List.length a' -> a = a' /\ b = b'.
Proof. revert a'. induction a as [|x a IH]; intros [|y a'] E H; cbn in *; try lia; [auto|]. injection E as -> E. destruct (IH a' E ltac:(lia)) as [-> ->]. auto. Qed.
Lemma init_snoc m xs x : init_run m (xs ++ [x]) = (fst (init_update (fst (init_run m xs)) x), snd (init_run m xs) ++ [snd (init_update (fst (init_run m xs)) x)]).
Proof. unfold TuiModel.init_run. rewrite fold_left_app. cbn. destruct (fold_left _ xs (m, [])) as [m' cs]. cbn. now destruct (init_update m' x). Qed.
Lemma sel_snoc m xs x : sel_run m (xs ++ [x]) = (fst (sel_update (fst (sel_run m xs)) x), snd (sel_run m xs) ++ [snd (sel_update (fst (sel_run m xs)) x)]).
Proof. unfold TuiModel.sel_run. rewrite fold_left_app. cbn. destruct (fold_left _ xs (m, [])) as [m' cs]. cbn. now destruct (sel_update m' x). Qed.

(** ** C132 *)
Lemma kept_cases (x : msg other) : kept x <-> x = Key "ctrl+c" \/ x = Key "esc" \/ x = Key "enter".
Proof. unfold kept. cbn. intuition congruence. Qed.
Lemma languages_nil l a : languages l [] a -> a = l.
Proof. intros H. inversion H as [E|xs x l' H' K E|xs w l' H' E|xs x l' H' K W E]; [reflexivity|..]; elim (snoc_nil _ _ E). Qed.
Lemma languages_snoc l xs x a : languages l (xs ++ [x]) a -> exists l', languages l xs l' /\
  ((kept x /\ a = l') \/ (exists w, x = Resize w /\ a = list_width l' w) \/ (~ kept x /\ (forall w, x <> Resize w) /\ a = fst (list_update l' x))).
Proof.
  intros H. inversion H as [E|xs' x' l' H' K E|xs' w l' H' E|xs' x' l' H' K W E]; [symmetry in E; elim (snoc_nil _ _ E)|..]; apply snoc_inj in E; destruct E as [E1 E2]; subst; eauto 8.
Qed.
Lemma languages_inj l xs : forall a b, languages l xs a -> languages l xs b -> a = b.
Proof.
  induction xs as [|x xs IH] using rev_ind; intros a b Ha Hb.
  - now rewrite (languages_nil _ _ Ha), (languages_nil _ _ Hb).
  - apply languages_snoc in Ha, Hb. destruct Ha as (la & Ha & Ca), Hb as (lb & Hb & Cb). rewrite (IH _ _ Ha Hb) in *. clear -Ca Cb.
    destruct Ca as [[K ->]|[(w & -> & ->)|(K & W & ->)]], Cb as [[K' ->]|[(w' & E & ->)|(K' & W' & ->)]]; try reflexivity; try contradiction; try congruence;
      try (subst; apply kept_cases in K; destruct K as [K|[K|K]]; discriminate); try (apply kept_cases in K'; destruct K' as [K'|[K'|K']]; discriminate); exfalso; eauto.
Qed.
Lemma init_list l lang xs : languages l xs (i_list (fst (init_run (new_init_app l lang) xs))).
Proof.
  induction xs as [|x xs IH] using rev_ind; [constructor|]. rewrite init_snoc. cbn [fst]. remember (fst (init_run (new_init_app l lang) xs)) as m eqn:E. clear E.
  destruct x as [k|w| |o]; cbn -[TuiModel.init_run].
  - destruct (String.eqb_spec k "ctrl+c") as [->|N1]; [cbn; constructor; [exact IH|cbn; unfold kept; cbn; auto]|]. destruct (String.eqb_spec k "esc") as [->|N2]; [cbn; constructor; [exact IH|unfold kept; cbn; auto]|].
    destruct (String.eqb_spec k "enter") as [->|N3]; [cbn; destruct (selected (i_list m)); cbn; constructor; auto; unfold kept; cbn; auto|]. cbn.
    replace (i_list _) with (fst (list_update (i_list m) (Key k))); [|destruct (list_update (i_list m) (Key k)); reflexivity].
    constructor; [exact IH| |discriminate]. intros K. apply kept_cases in K. destruct K as [K|[K|K]]; congruence.
  - now constructor.
  - replace (i_list _) with (fst (list_update (i_list m) ClearError)); [|destruct (list_update (i_list m) ClearError); reflexivity]. constructor; [exact IH| |discriminate]. intros K. apply kept_cases in K. destruct K as [K|[K|K]]; congruence.
  - replace (i_list _) with (fst (list_update (i_list m) (Other o))); [|destruct (list_update (i_list m) (Other o)); reflexivity]. constructor; [exact IH| |discriminate]. intros K. apply kept_cases in K. destruct K as [K|[K|K]]; congruence.
Qed.
Lemma choice_step m x : x <> Key "enter" \/ selected (i_list m) = None -> i_choice (fst (init_update m x)) = i_choice m.
Proof.
  intros H. destruct x as [k|w| |o]; cbn; try (destruct (list_update _ _); reflexivity); [|reflexivity].
  destruct (_ || _)%bool; [reflexivity|]. destruct (String.eqb_spec k "enter") as [->|N]; [destruct H as [H| ->]; [congruence|reflexivity]|]. destruct (list_update _ _); reflexivity.
Qed.
Lemma enter_step m c : selected (i_list m) = Some c -> i_choice (fst (init_update m (Key "enter"))) = c.
Proof. intros H. cbn. now rewrite H. Qed.
(** The language in the end is the one that was highlighted when Enter was last pressed; if it never
    was, it is the one given. *)
Theorem C132_chosen : forall l lang xs c, i_choice (fst (init_run (new_init_app l lang) xs)) = c <-> entered l xs c \/ (never_entered l xs /\ c = lang).
Proof.
  intros l lang xs. assert (G : forall xs, let c := i_choice (fst (init_run (new_init_app l lang) xs)) in entered l xs c \/ (never_entered l xs /\ c = lang)).
  { clear xs. intros xs. induction xs as [|x xs IH] using rev_ind; [right; split; [intros a b l' H; destruct a; discriminate|reflexivity]|]. cbv zeta in *. rewrite init_snoc. cbn [fst].
    assert (Hl := init_list l lang xs). remember (fst (init_run (new_init_app l lang) xs)) as m eqn:E. clear E.
    assert (D : x = Key "enter" \/ x <> Key "enter").
    { destruct x as [k|w| |o]; try (right; discriminate). destruct (String.eqb_spec k "enter") as [->|N]; [now left|right; congruence]. }
    destruct D as [->|N].
    - destruct (selected (i_list m)) as [c|] eqn:Es.
      + left. rewrite (enter_step _ _ Es). exists xs, [], (i_list m). split; [reflexivity|]. split; [exact Hl|]. split; [exact Es|]. intros b1 b2 l'' H. destruct b1; discriminate.
      + rewrite (choice_step _ (Key "enter") (or_intror Es)). destruct IH as [(a & b & l' & -> & Ha & Hs & Hb)|[Hn ->]].
        * left. exists a, (b ++ [Key "enter"]), l'. split; [now rewrite <- app_assoc|]. split; [exact Ha|]. split; [exact Hs|]. intros b1 b2 l'' Hsp Hl''. apply snoc_split in Hsp. destruct Hsp as [(_ & -> & _)|(b' & -> & ->)].
          -- now rewrite (languages_inj _ _ _ _ Hl'' Hl).
          -- now apply (Hb b1 b' l'').
        * right. split; [|reflexivity]. intros a b l' Hsp Hl'. apply snoc_split in Hsp. destruct Hsp as [(_ & -> & _)|(b' & -> & ->)]; [now rewrite (languages_inj _ _ _ _ Hl' Hl)|now apply (Hn a b' l')].
    - rewrite (choice_step _ x (or_introl N)). destruct IH as [(a & b & l' & -> & Ha & Hs & Hb)|[Hn ->]].
      + left. exists a, (b ++ [x]), l'. split; [now rewrite <- app_assoc|]. split; [exact Ha|]. split; [exact Hs|]. intros b1 b2 l'' Hsp Hl''. apply snoc_split in Hsp. destruct Hsp as [(_ & _ & X)|(b' & -> & ->)]; [contradiction|now apply (Hb b1 b' l'')].
      + right. split; [|reflexivity]. intros a b l' Hsp Hl'. apply snoc_split in Hsp. destruct Hsp as [(_ & _ & X)|(b' & -> & ->)]; [contradiction|now apply (Hn a b' l')]. }
  assert (T : forall a, exists l', languages l a l') by (intros a; eexists; apply (init_list l lang a)).
  intros c. specialize (G xs). cbv zeta in G. split; [intros <-; exact G|]. intros H.
  destruct G as [(a & b & l' & E & Ha & Hs & Hb)|[Hn Hc]], H as [(a' & b' & m' & E' & Ha' & Hs' & Hb')|[Hn' ->]]; [| | |exact Hc].
  - assert (X : a = a' /\ b = b').
    { rewrite E in E'. clear -E' Hs Hs' Ha Ha' Hb Hb'. revert E'. generalize (eq_refl (List.length a)). assert (Q : (List.length a < List.length a' \/ List.length a' < List.length a \/ List.length a = List.length a')%nat) by lia. intros _ E.
      assert (G : forall (a a' b b' : list (msg other)), a ++ Key "enter" :: b = a' ++ Key "enter" :: b' -> (List.length a < List.length a')%nat -> exists b1, a' = a ++ Key "enter" :: b1 /\ b = b1 ++ Key "enter" :: b').
      { clear. induction a as [|x a IH]; intros a' b b' E H; destruct a' as [|y a']; cbn in *; try lia.
        - injection E as <- ->. now exists a'.
        - injection E as <- E. destruct (IH a' b b' E ltac:(lia)) as (b1 & -> & ->). now exists b1. }
      destruct Q as [Q|[Q|Q]].
      - destruct (G _ _ _ _ E Q) as (b1 & -> & ->). rewrite (Hb b1 b' m' eq_refl Ha') in Hs'. discriminate.
      - symmetry in E. destruct (G _ _ _ _ E Q) as (b1 & -> & ->). rewrite (Hb' b1 b l' eq_refl Ha) in Hs. discriminate.
      - apply split_len in E; [|exact Q]. destruct E as [-> E]. now injection E as ->. }
    destruct X as [-> ->]. rewrite (languages_inj _ _ _ _ Ha Ha') in Hs. congruence.
  - rewrite (Hn' a b l' E Ha) in Hs. discriminate.
  - rewrite (Hn a' b' m' E' Ha') in Hs'. discriminate.
Qed.
(** The dialogue ends itself exactly at its three keys, *)
Theorem C132_ends : forall l lang xs x, snd (init_update (fst (init_run (new_init_app l lang) xs)) x) = IQuit <-> kept x.
Proof.
  intros l lang xs x. rewrite kept_cases. generalize (fst (init_run (new_init_app l lang) xs)). intros m. destruct x as [k|w| |o]; cbn.
  - destruct (String.eqb_spec k "ctrl+c") as [->|N1]; [cbn; split; auto|]. destruct (String.eqb_spec k "esc") as [->|N2]; [cbn; split; auto|].
    destruct (String.eqb_spec k "enter") as [->|N3]; [cbn; split; auto|]. cbn. destruct (list_update _ _). cbn. split; [discriminate|intros [H|[H|H]]; congruence].
  - split; [discriminate|intros [H|[H|H]]; discriminate].
  - destruct (list_update _ _). cbn. split; [discriminate|intros [H|[H|H]]; discriminate].
  - destruct (list_update _ _). cbn. split; [discriminate|intros [H|[H|H]]; discriminate].
Qed.
(** so it waits for one even if the language is given, and what is given is forgotten when Enter is
    pressed. *)
Theorem C132_given_refuted : forall l lang lang' xs c, entered l xs c ->
  i_choice (fst (init_run (new_init_app l lang) xs)) = c /\ i_choice (fst (init_run (new_init_app l lang') xs)) = c.
Proof. intros l lang lang' xs c H. split; apply C132_chosen; now left. Qed.
(** If a language is given, the question that is waited for is never shown. *)
Theorem C132_question_refuted : forall l lang xs, lang <> "" -> (forall l' c, selected l' = Some c -> c <> "") ->
  exists c, init_show (fst (init_run (new_init_app l lang) xs)) = VChosen c.
Proof.
  intros l lang xs Hl Hs. assert (N : i_choice (fst (init_run (new_init_app l lang) xs)) <> "").
  { destruct (proj1 (C132_chosen l lang xs _) eq_refl) as [(a & b & l' & _ & _ & H & _)|[_ ->]]; [exact (Hs _ _ H)|exact Hl]. }
  unfold init_show. apply String.eqb_neq in N. rewrite N. cbn. eauto.
Qed.
Lemma quit_init l lang xs : i_quitting (fst (init_run (new_init_app l lang) xs)) = true <-> left_it xs.
Proof.
  unfold left_it. induction xs as [|x xs IH] using rev_ind; [split; [discriminate|intros [[]|[]]]|]. rewrite init_snoc. cbn [fst]. rewrite !in_app_iff. cbn [In].
  revert IH. generalize (fst (init_run (new_init_app l lang) xs)). intros m IH. destruct x as [k|w| |o]; cbn [TuiModel.init_update].
  - destruct (String.eqb_spec k "ctrl+c") as [->|N1]; [cbn; tauto|]. destruct (String.eqb_spec k "esc") as [->|N2]; [cbn; tauto|]. cbn [orb].
    assert (K : (In (Key "ctrl+c") xs \/ Key (other := other) k = Key "ctrl+c" \/ False) \/ (In (Key "esc") xs \/ Key (other := other) k = Key "esc" \/ False) <-> In (Key "ctrl+c") xs \/ In (Key (other := other) "esc") xs) by (split; [intros [[?|[[=]|[]]]|[?|[[=]|[]]]]; auto; contradiction|tauto]).
    rewrite K. destruct (String.eqb k "enter"); [destruct (selected (i_list m)); exact IH|]. destruct (list_update _ _). exact IH.
  - cbn. rewrite IH. intuition discriminate.
  - destruct (list_update _ _). cbn. rewrite IH. intuition discriminate.
  - destruct (list_update _ _). cbn. rewrite IH. intuition discriminate.
Qed.
(** What is shown: the language as soon as there is one; until then a farewell if the dialogue was left, and
    the question otherwise. *)
Theorem C132_shown : forall l lang xs, let c := i_choice (fst (init_run (new_init_app l lang) xs)) in let v := init_show (fst (init_run (new_init_app l lang) xs)) in
  (c <> "" -> v = VChosen c) /\ (c = "" -> left_it xs -> v = VBye) /\ (c = "" -> ~ left_it xs -> v = VList).
Proof.
  intros l lang xs. cbv zeta. rewrite <- (quit_init l lang xs). unfold init_show. destruct (String.eqb_spec (i_choice (fst (init_run (new_init_app l lang) xs))) "") as [E|N]; cbn [negb].
  - rewrite E. split; [congruence|]. destruct (i_quitting _); split; intuition congruence.
  - split; [reflexivity|]. split; intros; contradiction.
Qed.

(** ** C133 *)
Lemma ends_cases (x : msg other) : ends x <-> x = Key "ctrl+c" \/ x = Key "q".
Proof. unfold ends. cbn. intuition congruence. Qed.
Lemma sources_nil l a : sources l [] a -> a = l.
Proof. intros H. inversion H as [E|xs x l' H' K E|xs x l' H' K E]; [reflexivity|..]; elim (snoc_nil _ _ E). Qed.
Lemma sources_snoc l xs x a : sources l (xs ++ [x]) a -> exists l', sources l xs l' /\ ((ends x /\ a = l') \/ (~ ends x /\ a = fst (list_update l' x))).
Proof. intros H. inversion H as [E|xs' x' l' H' K E|xs' x' l' H' K E]; [symmetry in E; elim (snoc_nil _ _ E)|..]; apply snoc_inj in E; destruct E as [E1 E2]; subst; eauto 8. Qed.
Lemma sources_inj l xs : forall a b, sources l xs a -> sources l xs b -> a = b.
Proof.
  induction xs as [|x xs IH] using rev_ind; intros a b Ha Hb.
  - now rewrite (sources_nil _ _ Ha), (sources_nil _ _ Hb).
  - apply sources_snoc in Ha, Hb. destruct Ha as (la & Ha & Ca), Hb as (lb & Hb & Cb). rewrite (IH _ _ Ha Hb) in *. clear -Ca Cb.
    destruct Ca as [[K ->]|(K & ->)], Cb as [[K' ->]|(K' & ->)]; try reflexivity; contradiction.
Qed.
Lemma files_nil p a : files p [] a -> a = p.
Proof. intros H. inversion H as [E|xs x l' H' K E|xs w l' H' E|xs x l' H' K W E]; [reflexivity|..]; elim (snoc_nil _ _ E). Qed.
Lemma files_snoc p xs x a : files p (xs ++ [x]) a -> exists p', files p xs p' /\
  ((ends x /\ a = p') \/ (exists w, x = Resize w /\ a = fst (picker_update (fst (picker_update p' x)) x)) \/ (~ ends x /\ (forall w, x <> Resize w) /\ a = fst (picker_update p' x))).
Proof.
  intros H. inversion H as [E|xs' x' l' H' K E|xs' w l' H' E|xs' x' l' H' K W E]; [symmetry in E; elim (snoc_nil _ _ E)|..]; apply snoc_inj in E; destruct E as [E1 E2]; subst; eauto 8.
Qed.
Lemma files_inj p xs : forall a b, files p xs a -> files p xs b -> a = b.
Proof.
  induction xs as [|x xs IH] using rev_ind; intros a b Ha Hb.
  - now rewrite (files_nil _ _ Ha), (files_nil _ _ Hb).
  - apply files_snoc in Ha, Hb. destruct Ha as (la & Ha & Ca), Hb as (lb & Hb & Cb). rewrite (IH _ _ Ha Hb) in *. clear -Ca Cb.
    destruct Ca as [[K ->]|[(w & -> & ->)|(K & W & ->)]], Cb as [[K' ->]|[(w' & E & ->)|(K' & W' & ->)]]; try reflexivity; try contradiction;
      try (subst; apply ends_cases in K; destruct K as [K|K]; discriminate); try (apply ends_cases in K'; destruct K' as [K'|K']; discriminate); first [now elim (W' _ eq_refl)|now elim (W _ E)].
Qed.
(** One message: the widgets, whether the files are shown, the selection *)
Ltac use R := match type of R with _ = ?v => match goal with |- ?t = true <-> _ => replace t with v by (symmetry; exact R) end end.
Lemma sel_step m x : let r := sel_update m x in
  s_list (fst r) = (if existsb (fun k => match x with Key n => String.eqb n k | _ => false end) ["ctrl+c"; "q"] then s_list m else fst (list_update (s_list m) x)) /\
  s_picker (fst r) = (if existsb (fun k => match x with Key n => String.eqb n k | _ => false end) ["ctrl+c"; "q"] then s_picker m
                      else fst (picker_update (match x with Resize _ => fst (picker_update (s_picker m) x) | _ => s_picker m end) x)) /\
  (s_files (fst r) = true <-> s_files m = true \/ (x = Key "enter" /\ selected (s_list m) <> None)) /\
  (forall f, In (SSelect f) (snd r) <-> s_files m = true /\ ~ ends x /\ picked (s_picker (fst r)) x = Some f /\ picked_disabled (s_picker (fst r)) x = None).
Proof.
  cbv zeta. unfold TuiModel.sel_update.
  assert (R : forall m' (cs : list (sel_cmd command)), (forall f, ~ In (SSelect f) cs) -> ~ ends x ->
    let r := (let '(p, pc) := picker_update (s_picker m') x in let '(l, lc) := list_update (s_list m') x in
              let m0 := mk_sel p l (s_source m') (s_file m') (s_files m') (s_quitting m') (s_err m') in let cmds := cs ++ [SWidget pc; SWidget lc] in
              if negb (s_files m) then (m0, cmds) else
              let '(m1, cmds) := match picked p x with Some f => (mk_sel p l (s_source m0) f (s_files m0) (s_quitting m0) (s_err m0), cmds ++ [SSelect f]) | None => (m0, cmds) end in
              match picked_disabled p x with
              | Some f => (mk_sel p l (s_source m1) "" (s_files m1) (s_quitting m1) (Some (f ++ " is not valid.")%string), [SWidget pc; SWidget lc; SClearErrorLater; SClear])
              | None => (m1, cmds) end) in
    s_list (fst r) = fst (list_update (s_list m') x) /\ s_picker (fst r) = fst (picker_update (s_picker m') x) /\ s_files (fst r) = s_files m' /\
    (forall f, In (SSelect f) (snd r) <-> s_files m = true /\ ~ ends x /\ picked (s_picker (fst r)) x = Some f /\ picked_disabled (s_picker (fst r)) x = None)).
  { intros m' cs Hcs He. cbv zeta. destruct (picker_update (s_picker m') x) as [p pc]. destruct (list_update (s_list m') x) as [l lc]. destruct (s_files m); cbn [negb].
    - destruct (picked p x) as [f0|] eqn:Ep, (picked_disabled p x) as [f1|] eqn:Ed; cbn; (split; [reflexivity|]); (split; [reflexivity|]); (split; [reflexivity|]); intros f; rewrite ?Ep, ?Ed.
      + split; [intros [H|[H|[H|[H|[]]]]]; discriminate|intros (_ & _ & _ & H); discriminate].
      + rewrite !in_app_iff. cbn. split.
        * intros [[H|[H|[H|[]]]]|[H|[]]]; [elim (Hcs _ H)|discriminate|discriminate|injection H as <-; auto].
        * intros (_ & _ & [= <-] & _). auto.
      + split; [intros [H|[H|[H|[H|[]]]]]; discriminate|intros (_ & _ & _ & H); discriminate].
      + rewrite in_app_iff. cbn. split; [intros [H|[H|[H|[]]]]; [elim (Hcs _ H)|discriminate|discriminate]|intros (_ & _ & H & _); discriminate].
    - cbn. split; [reflexivity|]. split; [reflexivity|]. split; [reflexivity|]. intros f. rewrite in_app_iff. cbn. split; [intros [H|[H|[H|[]]]]; [elim (Hcs _ H)|discriminate|discriminate]|intros (H & _); discriminate]. }
  assert (F0 : forall f, ~ In (SSelect f) ([] : list (sel_cmd command))) by (intros f []).
  destruct x as [k|w| |o].
  - cbn [existsb]. rewrite Bool.orb_false_r. destruct (String.eqb k "ctrl+c" || String.eqb k "q")%bool eqn:Eq.
    + cbn. split; [reflexivity|]. split; [reflexivity|]. apply Bool.orb_true_iff in Eq. rewrite !String.eqb_eq in Eq. split; [split; [auto|intros [H|[H _]]; [exact H|injection H as ->; destruct Eq; discriminate]]|].
      intros f. split; [intros [H|[]]; discriminate|]. intros (_ & H & _). exfalso. apply H, ends_cases. destruct Eq as [-> | ->]; auto.
    + assert (Ne : ~ ends (Key (other := other) k)).
      { apply Bool.orb_false_iff in Eq. rewrite !String.eqb_neq in Eq. intros H. apply ends_cases in H. destruct H as [[= ->]|[= ->]]; tauto. }
      destruct (String.eqb_spec k "enter") as [->|Nk]; cbn [andb].
      * destruct (s_files m) eqn:Ef; cbn [negb].
        -- specialize (R m [] F0 Ne). try rewrite Ef in R. cbv zeta in R. destruct R as (R1 & R2 & R3 & R4). split; [exact R1|]. split; [exact R2|]. split; [|exact R4]. use R3; rewrite ?Ef. split; auto.
        -- destruct (selected (s_list m)) as [i|] eqn:Es.
           ++ specialize (R (mk_sel (s_picker m) (s_list m) i (s_file m) true (s_quitting m) (s_err m)) [] F0 Ne). try rewrite Ef in R. cbv zeta in R. destruct R as (R1 & R2 & R3 & R4).
              split; [exact R1|]. split; [exact R2|]. split; [|exact R4]. use R3. cbn. split; [|reflexivity]. intros _. right. split; [reflexivity|discriminate].
           ++ specialize (R m [] F0 Ne). try rewrite Ef in R. cbv zeta in R. destruct R as (R1 & R2 & R3 & R4). split; [exact R1|]. split; [exact R2|]. split; [|exact R4]. use R3; rewrite ?Ef. split; [discriminate|intros [H|[_ H]]; [exact H|now elim H]].
      * specialize (R m [] F0 Ne). cbv zeta in R. destruct R as (R1 & R2 & R3 & R4). split; [exact R1|]. split; [exact R2|]. split; [|exact R4]. use R3. split; [auto|intros [H|[H _]]; [exact H|congruence]].
  - assert (Ne : ~ ends (Resize (other := other) w)) by (intros H; apply ends_cases in H; destruct H; discriminate). cbn [existsb orb].
    destruct (picker_update (s_picker m) (Resize w)) as [p c] eqn:Epu. specialize (R (mk_sel p (s_list m) (s_source m) (s_file m) (s_files m) (s_quitting m) (s_err m)) [SWidget c]).
    destruct (R ltac:(intros f [H|[]]; discriminate) Ne) as (R1 & R2 & R3 & R4). split; [exact R1|]. split; [exact R2|]. split; [|exact R4]. use R3. cbn. split; [auto|intros [H|[H _]]; [exact H|discriminate]].
  - assert (Ne : ~ ends (ClearError (other := other))) by (intros H; apply ends_cases in H; destruct H; discriminate). cbn [existsb orb].
    destruct (R (mk_sel (s_picker m) (s_list m) (s_source m) (s_file m) (s_files m) (s_quitting m) None) [] F0 Ne) as (R1 & R2 & R3 & R4). split; [exact R1|]. split; [exact R2|]. split; [|exact R4]. use R3. cbn. split; [auto|intros [H|[H _]]; [exact H|discriminate]].
  - assert (Ne : ~ ends (Other o)) by (intros H; apply ends_cases in H; destruct H; discriminate). cbn [existsb orb].
    destruct (R m [] F0 Ne) as (R1 & R2 & R3 & R4). split; [exact R1|]. split; [exact R2|]. split; [|exact R4]. use R3. cbn. split; [auto|intros [H|[H _]]; [exact H|discriminate]].
Qed.
Lemma ends_test (x : msg other) : existsb (fun k => match x with Key n => String.eqb n k | _ => false end) ["ctrl+c"; "q"] = true <-> ends x.
Proof.
  rewrite ends_cases. cbn. destruct x as [k|w| |o]; try (split; [discriminate|intros [H|H]; discriminate]).
  destruct (String.eqb_spec k "ctrl+c") as [->|N]; cbn; [tauto|]. destruct (String.eqb_spec k "q") as [->|N']; cbn; [tauto|]. split; [discriminate|intros [H|H]; congruence].
Qed.
Lemma sel_list p l file xs : sources l xs (s_list (fst (sel_run (new_select p l file) xs))).
Proof.
  induction xs as [|x xs IH] using rev_ind; [constructor|]. rewrite sel_snoc. cbn [fst]. destruct (sel_step (fst (sel_run (new_select p l file) xs)) x) as (H & _). rewrite H.
  destruct (existsb _ _) eqn:E; [apply ends_test in E; now constructor|]. constructor; [exact IH|]. intros K. apply ends_test in K. congruence.
Qed.
(** The files see every message, whatever is shown. *)
Lemma sel_files p l file xs : files p xs (s_picker (fst (sel_run (new_select p l file) xs))).
Proof.
  induction xs as [|x xs IH] using rev_ind; [constructor|]. rewrite sel_snoc. cbn [fst]. destruct (sel_step (fst (sel_run (new_select p l file) xs)) x) as (_ & H & _). rewrite H.
  destruct (existsb _ _) eqn:E; [apply ends_test in E; now constructor|]. assert (K : ~ ends x) by (intros K; apply ends_test in K; congruence). clear -IH K. destruct x; [| |constructor; [exact IH|exact K|discriminate]..].
  - constructor; [exact IH|exact K|discriminate].
  - now constructor.
Qed.
Lemma sel_shown p l file xs : s_files (fst (sel_run (new_select p l file) xs)) = true <-> source_chosen l xs.
Proof.
  induction xs as [|x xs IH] using rev_ind; [split; [discriminate|intros (a & b & l' & E & _); destruct a; discriminate]|]. rewrite sel_snoc. cbn [fst]. destruct (sel_step (fst (sel_run (new_select p l file) xs)) x) as (_ & _ & H & _). rewrite H, IH. split.
  - intros [(a & b & l' & -> & Ha & Hs)|[-> Hs]].
    + exists a, (b ++ [x]), l'. split; [now rewrite <- app_assoc|auto].
    + exists xs, [], (s_list (fst (sel_run (new_select p l file) xs))). split; [reflexivity|]. split; [apply sel_list|exact Hs].
  - intros (a & b & l' & E & Ha & Hs). apply snoc_split in E. destruct E as [(_ & -> & ->)|(b' & -> & ->)].
    + right. split; [reflexivity|]. now rewrite (sources_inj _ _ _ _ (sel_list p l file a) Ha).
    + left. now exists a, b', l'.
Qed.
Lemma quit_step m x : s_quitting (fst (sel_update m x)) = true <-> s_quitting m = true \/ ends x.
Proof.
  rewrite ends_cases. unfold TuiModel.sel_update.
  assert (R : forall m' (cs : list (sel_cmd command)), s_quitting m' = s_quitting m ->
    s_quitting (fst (let '(p, pc) := picker_update (s_picker m') x in let '(l, lc) := list_update (s_list m') x in
              let m0 := mk_sel p l (s_source m') (s_file m') (s_files m') (s_quitting m') (s_err m') in let cmds := cs ++ [SWidget pc; SWidget lc] in
              if negb (s_files m) then (m0, cmds) else
              let '(m1, cmds) := match picked p x with Some f => (mk_sel p l (s_source m0) f (s_files m0) (s_quitting m0) (s_err m0), cmds ++ [SSelect f]) | None => (m0, cmds) end in
              match picked_disabled p x with
              | Some f => (mk_sel p l (s_source m1) "" (s_files m1) (s_quitting m1) (Some (f ++ " is not valid.")%string), [SWidget pc; SWidget lc; SClearErrorLater; SClear])
              | None => (m1, cmds) end)) = s_quitting m).
  { intros m' cs <-. destruct (picker_update (s_picker m') x). destruct (list_update (s_list m') x). destruct (s_files m); cbn [negb]; [|reflexivity]. destruct (picked _ x), (picked_disabled _ x); reflexivity. }
  destruct x as [k|w| |o].
  - destruct (String.eqb_spec k "ctrl+c") as [->|N1]; [cbn; tauto|]. destruct (String.eqb_spec k "q") as [->|N2]; [cbn; tauto|]. cbn [orb].
    assert (K : s_quitting m = true \/ Key (other := other) k = Key "ctrl+c" \/ Key (other := other) k = Key "q" <-> s_quitting m = true) by (split; [intros [?|[[=]|[=]]]; auto; contradiction|tauto]). rewrite K.
    destruct (_ && _)%bool; [destruct (selected (s_list m))|]; rewrite R; reflexivity.
  - destruct (picker_update (s_picker m) (Resize w)). rewrite R by reflexivity. intuition discriminate.
  - rewrite R by reflexivity. intuition discriminate.
  - rewrite R by reflexivity. intuition discriminate.
Qed.
Lemma sel_quit p l file xs : s_quitting (fst (sel_run (new_select p l file) xs)) = true <-> ended xs.
Proof.
  unfold ended. induction xs as [|x xs IH] using rev_ind; [split; [discriminate|intros (x & [] & _)]|]. rewrite sel_snoc. cbn [fst]. rewrite quit_step, IH. split.
  - intros [(y & I & E)|E]; [exists y|exists x]; rewrite in_app_iff; cbn; auto.
  - intros (y & I & E). apply in_app_iff in I. destruct I as [I|[<-|[]]]; [left; eauto|auto].
Qed.
(** Nothing is shown once the dialogue was ended; before, the files are shown once a source was chosen, and the
    sources until then. *)
Theorem C133_shown : forall p l file xs, let v := sel_show (fst (sel_run (new_select p l file) xs)) in
  (ended xs -> v = ShowNothing) /\ (~ ended xs -> source_chosen l xs -> exists h, v = ShowFiles h) /\ (~ ended xs -> ~ source_chosen l xs -> exists h, v = ShowSources h).
Proof.
  intros p l file xs. cbv zeta. rewrite <- (sel_quit p l file xs), <- (sel_shown p l file xs). unfold sel_show. destruct (s_quitting _), (s_files _); (split; [intros; try discriminate; reflexivity|split; intros; first [eauto; fail|exfalso; congruence]]).
Qed.
(** A file is selected exactly by a message at which the files report it, and only after a source was
    chosen: the key that chooses the source selects nothing. *)
Theorem C133_selected : forall p l file xs x f, In (SSelect f) (snd (sel_update (fst (sel_run (new_select p l file) xs)) x)) <->
  source_chosen l xs /\ ~ ends x /\ exists p', files p (xs ++ [x]) p' /\ picked p' x = Some f /\ picked_disabled p' x = None.
Proof.
  intros p l file xs x f. destruct (sel_step (fst (sel_run (new_select p l file) xs)) x) as (_ & _ & _ & H). rewrite H, sel_shown.
  assert (X := sel_files p l file (xs ++ [x])). rewrite sel_snoc in X. cbn [fst] in X. split.
  - intros (A & B & C). split; [exact A|]. split; [exact B|]. eexists. split; [exact X|exact C].
  - intros (A & B & p' & C & D). rewrite (files_inj _ _ _ _ X C). auto.
Qed.
(** A file of another type is refused: the selection is undone, and an error names the file. *)
Theorem C133_refused : forall p l file xs x p' f, source_chosen l xs -> ~ ends x -> files p (xs ++ [x]) p' -> picked_disabled p' x = Some f ->
  let r := sel_update (fst (sel_run (new_select p l file) xs)) x in
  In SClear (snd r) /\ s_file (fst r) = "" /\ s_err (fst r) = Some (f ++ " is not valid.")%string /\
  (~ ended xs -> sel_show (fst r) = ShowFiles (HError (f ++ " is not valid."))).
Proof.
  intros p l file xs x p' f Hc He Hf Hd. cbv zeta.
  enough (G : let r := sel_update (fst (sel_run (new_select p l file) xs)) x in In SClear (snd r) /\ s_file (fst r) = "" /\ s_err (fst r) = Some (f ++ " is not valid.")%string).
  { cbv zeta in G. destruct G as (G1 & G2 & G3). split; [exact G1|]. split; [exact G2|]. split; [exact G3|]. intros Ne. unfold sel_show.
    assert (Q : s_quitting (fst (sel_update (fst (sel_run (new_select p l file) xs)) x)) <> true) by (rewrite quit_step, (sel_quit p l file xs); tauto).
    assert (F : s_files (fst (sel_update (fst (sel_run (new_select p l file) xs)) x)) = true) by (apply sel_step; left; now apply sel_shown).
    destruct (s_quitting _); [congruence|]. rewrite F, G3. reflexivity. }
  revert p l file xs x p' f Hc He Hf Hd.
  intros p l file xs x p' f Hc He Hf Hd. cbv zeta. apply (sel_shown p l file) in Hc. assert (X := sel_files p l file (xs ++ [x])). rewrite sel_snoc in X. cbn [fst] in X. apply (files_inj _ _ _ _ Hf) in X. subst p'.
  revert Hc Hd. generalize (fst (sel_run (new_select p l file) xs)). intros m Hc Hd. clear Hf.
  assert (N := sel_step m x). cbv zeta in N. destruct N as (_ & N & _). rewrite N in Hd. clear N. destruct (existsb _ _) eqn:E; [apply ends_test in E; contradiction|]. clear He.
  unfold TuiModel.sel_update. rewrite Hc. cbn [negb]. destruct x as [k|w| |o]; cbn [existsb orb] in *.
  - rewrite Bool.orb_false_r in E. rewrite E, Bool.andb_false_r. destruct (picker_update (s_picker m) (Key k)) as [q pc]. cbn [fst] in Hd. destruct (list_update (s_list m) (Key k)). rewrite Hd. destruct (picked q _); cbn; auto 6.
  - destruct (picker_update (s_picker m) (Resize w)) as [q0 pc0]. cbn [fst s_picker s_list] in *. destruct (picker_update q0 (Resize w)) as [q pc]. cbn [fst] in Hd. destruct (list_update (s_list m) (Resize w)). rewrite Hd. destruct (picked q _); cbn; auto 6.
  - cbn [s_picker s_list]. destruct (picker_update (s_picker m) ClearError) as [q pc]. cbn [fst] in Hd. destruct (list_update (s_list m) ClearError). rewrite Hd. destruct (picked q _); cbn; auto 6.
  - destruct (picker_update (s_picker m) (Other o)) as [q pc]. cbn [fst] in Hd. destruct (list_update (s_list m) (Other o)). rewrite Hd. destruct (picked q _); cbn; auto 6.
Qed.
(** While the source is asked for, the keys also move about in the files, which are not shown; among
    them the key that chooses the source. *)
Theorem C133_hidden_refuted : forall p l file xs, ~ source_chosen l xs ->
  exists p', files p xs p' /\ s_picker (fst (sel_run (new_select p l file) (xs ++ [Key "enter"]))) = fst (picker_update p' (Key "enter")).
Proof.
  intros p l file xs _. exists (s_picker (fst (sel_run (new_select p l file) xs))). split; [apply sel_files|]. rewrite sel_snoc. cbn [fst]. destruct (sel_step (fst (sel_run (new_select p l file) xs)) (Key "enter")) as (_ & H & _). exact H.
Qed.
End Widgets.
(** Which source is highlighted makes no difference: the same files are picked from, and the same
    commands are given. *)
Theorem C133_source_refuted : forall (other command L P : Type) (list_update : L -> msg other -> L * command) (sel1 sel2 : L -> option string) (picker_update : P -> msg other -> P * command) picked picked_disabled p l file xs,
  (forall l, sel1 l = None <-> sel2 l = None) ->
  let r1 := sel_run list_update sel1 picker_update picked picked_disabled (new_select p l file) xs in
  let r2 := sel_run list_update sel2 picker_update picked picked_disabled (new_select p l file) xs in
  snd r1 = snd r2 /\ s_picker (fst r1) = s_picker (fst r2) /\ s_file (fst r1) = s_file (fst r2) /\ s_files (fst r1) = s_files (fst r2).
Proof.
  intros other command L P list_update sel1 sel2 picker_update picked picked_disabled p l file xs E. cbv zeta.
  set (forget := fun m : sel_model L P => mk_sel (s_picker m) (s_list m) "" (s_file m) (s_files m) (s_quitting m) (s_err m)).
  assert (G : forget (fst (sel_run list_update sel1 picker_update picked picked_disabled (new_select p l file) xs)) = forget (fst (sel_run list_update sel2 picker_update picked picked_disabled (new_select p l file) xs)) /\
              snd (sel_run list_update sel1 picker_update picked picked_disabled (new_select p l file) xs) = snd (sel_run list_update sel2 picker_update picked picked_disabled (new_select p l file) xs)).
  { induction xs as [|x xs [IH1 IH2]] using rev_ind; [split; reflexivity|]. rewrite !sel_snoc. cbn [fst snd]. rewrite IH2. revert IH1.
    generalize (fst (sel_run list_update sel1 picker_update picked picked_disabled (new_select p l file) xs)), (fst (sel_run list_update sel2 picker_update picked picked_disabled (new_select p l file) xs)).
    intros [p1 l1 so1 f1 fs1 q1 e1] [p2 l2 so2 f2 fs2 q2 e2] H. cbn in H. injection H as <- <- <- <- <- <-.
    assert (S : forget (fst (sel_update list_update sel1 picker_update picked picked_disabled (mk_sel p1 l1 so1 f1 fs1 q1 e1) x)) = forget (fst (sel_update list_update sel2 picker_update picked picked_disabled (mk_sel p1 l1 so2 f1 fs1 q1 e1) x)) /\
                snd (sel_update list_update sel1 picker_update picked picked_disabled (mk_sel p1 l1 so1 f1 fs1 q1 e1) x) = snd (sel_update list_update sel2 picker_update picked picked_disabled (mk_sel p1 l1 so2 f1 fs1 q1 e1) x)).
    { unfold sel_update, forget. cbn -[String.eqb]. specialize (E l1). destruct x as [k|w| |o].
      - destruct (_ || _)%bool; [split; reflexivity|]. destruct (_ && _)%bool.
        + destruct (sel1 l1), (sel2 l1); try (exfalso; destruct E as [E1 E2]; first [discriminate (E1 eq_refl)|discriminate (E2 eq_refl)]); cbn -[String.eqb];
            destruct (picker_update p1 _), (list_update l1 _); destruct (negb fs1); [split; reflexivity| |split; reflexivity|]; destruct (picked _ _), (picked_disabled _ _); split; reflexivity.
        + cbn -[String.eqb]; destruct (picker_update p1 _), (list_update l1 _); destruct (negb fs1); [split; reflexivity|]; destruct (picked _ _), (picked_disabled _ _); split; reflexivity.
      - destruct (picker_update p1 _) as [p' c]. cbn. destruct (picker_update p' _), (list_update l1 _); destruct (negb fs1); [split; reflexivity|]; destruct (picked _ _), (picked_disabled _ _); split; reflexivity.
      - destruct (picker_update p1 _), (list_update l1 _); destruct (negb fs1); [split; reflexivity|]; destruct (picked _ _), (picked_disabled _ _); split; reflexivity.
      - destruct (picker_update p1 _), (list_update l1 _); destruct (negb fs1); [split; reflexivity|]; destruct (picked _ _), (picked_disabled _ _); split; reflexivity. }
    destruct S as [S1 ->]. auto. }
  destruct G as [G1 G2]. split; [exact G2|]. unfold forget in G1. injection G1. auto.
Qed.

(** ** The hypotheses are met *)
(** A list with a cursor; a picker in a directory whose first entry is a directory with one file *)
Definition move (n : nat) (x : msg unit) : nat * unit := (match x with Key "down" => S n | Key "up" => pred n | _ => n end, tt).
Definition item (l : list string) (n : nat) : option string := nth_error l n.
Definition ex_languages : list string := ["nodejs"; "python"; "java"; "dotnet"; "go"; "rust"].
Definition open (p : string * option string) (x : msg unit) : (string * option string) * unit :=
  (match x with Key "enter" => if String.eqb (fst p) "." then ("./docs", None) else (fst p, Some (fst p ++ "/note.yaml")%string) | _ => p end, tt).
Definition opened (p : string * option string) (x : msg unit) : option string := match x with Key "enter" => snd p | _ => None end.
Example C132_nonvacuous :
  i_choice (fst (init_run move (fun n _ => n) (item ex_languages) (new_init_app 0%nat "go") [Key "down"; Key "enter"])) = "python" /\
  entered move (fun n _ => n) (item ex_languages) 0%nat [Key "down"; Key "enter"] "python" /\
  i_choice (fst (init_run move (fun n _ => n) (item ex_languages) (new_init_app 0%nat "go") [Key "down"; Key "esc"])) = "go" /\
  init_show (fst (init_run move (fun n _ => n) (item ex_languages) (new_init_app 0%nat "go") [])) = VChosen "go" /\
  snd (init_run move (fun n _ => n) (item ex_languages) (new_init_app 0%nat "go") [Key "down"; Resize 3]) = [IList tt; INone].
Proof.
  split; [reflexivity|]. split; [|split; [reflexivity|split; reflexivity]]. exists [Key "down"], [], 1%nat. split; [reflexivity|]. split.
  - apply (ls_other move (fun n _ => n) 0%nat [] (Key "down") 0%nat); [constructor| |discriminate]. unfold kept. cbn. intuition congruence.
  - split; [reflexivity|]. intros b1 b2 l'' H. destruct b1; discriminate.
Qed.
Example C133_nonvacuous :
  let run := sel_run move (item ["file"; "s3"]) open opened (fun _ _ => None) (new_select (".", None) 0%nat "") in
  source_chosen move (item ["file"; "s3"]) 0%nat [Key "down"; Key "enter"] /\
  snd (run [Key "down"; Key "enter"; Key "enter"]) = [[SWidget tt; SWidget tt]; [SWidget tt; SWidget tt]; [SWidget tt; SWidget tt; SSelect "./docs/note.yaml"]] /\
  snd (run [Key "enter"; Key "enter"]) = [[SWidget tt; SWidget tt]; [SWidget tt; SWidget tt; SSelect "./docs/note.yaml"]] /\
  s_source (fst (run [Key "down"; Key "enter"])) = "s3" /\ s_picker (fst (run [Key "enter"])) = ("./docs", None).
Proof.
  cbv zeta. split; [|split; [reflexivity|split; [reflexivity|split; reflexivity]]]. exists [Key "down"], [], 1%nat. split; [reflexivity|]. split; [|discriminate].
  apply (so_other move 0%nat [] (Key "down") 0%nat); [constructor|]. unfold ends. cbn. intuition congruence.
Qed.
Print Assumptions C132_chosen.
Print Assumptions C132_ends.
Print Assumptions C132_given_refuted.
Print Assumptions C132_question_refuted.
Print Assumptions C133_selected.
Print Assumptions C133_refused.
Print Assumptions C133_hidden_refuted.
Print Assumptions C133_source_refuted.
Print Assumptions C132_shown.
Print Assumptions C133_shown.
