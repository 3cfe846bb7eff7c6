(** Proofs about the command line. *)
From Verif Require Import Base ConfigModel ConfigSpec ConfigProofs CmdModel CmdSpec.
Open Scope string_scope.
Local Open Scope list_scope.

(** * Texts *)
Lemma app_nil (s : string) : (s ++ "")%string = s.
Proof. induction s; cbn; congruence. Qed.
Lemma split_no s n : split_equals s = (n, None) -> s = n /\ has_equals n = false.
Proof.
  revert n; induction s as [|c s IH]; intros n H; cbn in H; [injection H as <-; now split|].
  destruct (Ascii.eqb c "=") eqn:E; [discriminate|]. destruct (split_equals s) as [n' o]. injection H as <- ->. destruct (IH _ eq_refl) as [-> H].
  split; [reflexivity|]. cbn. now rewrite E, H.
Qed.
Lemma split_some s n v : split_equals s = (n, Some v) -> s = (n ++ "=" ++ v)%string /\ has_equals n = false.
Proof.
  revert n; induction s as [|c s IH]; intros n H; cbn in H; [discriminate|].
  destruct (Ascii.eqb c "=") eqn:E.
  - injection H as <- <-. apply Ascii.eqb_eq in E. subst. now split.
  - destruct (split_equals s) as [n' o]. injection H as <- ->. destruct (IH _ eq_refl) as [-> H]. split; [reflexivity|]. cbn. now rewrite E, H.
Qed.
Lemma split_name n : has_equals n = false -> split_equals n = (n, None).
Proof. induction n as [|c n IH]; cbn; [reflexivity|]. destruct (Ascii.eqb c "="); [discriminate|]. intros H. now rewrite IH. Qed.
Lemma split_value n v : has_equals n = false -> split_equals (n ++ "=" ++ v) = (n, Some v).
Proof. induction n as [|c n IH]; cbn; [reflexivity|]. destruct (Ascii.eqb c "="); [discriminate|]. intros H. cbn in IH. now rewrite IH. Qed.
Lemma has_app a b : has_equals (a ++ b) = (has_equals a || has_equals b)%bool.
Proof. induction a as [|c a IH]; cbn; [reflexivity|]. now rewrite IH, orb_assoc. Qed.
Lemma prefix_app a b : prefix a (a ++ b) = true.
Proof. induction a as [|c a IH]; cbn; [now destruct b|]. destruct (ascii_dec c c); [exact IH|congruence]. Qed.
Lemma prefix_eq a s : prefix a s = true -> exists b, s = (a ++ b)%string.
Proof.
  revert s; induction a as [|c a IH]; intros s H; [now exists s|]. destruct s as [|d s]; cbn in H; [discriminate|].
  destruct (ascii_dec c d) as [->|]; [|discriminate]. destruct (IH _ H) as [b ->]. now exists b.
Qed.
Lemma substring_all s : substring 0 (String.length s) s = s.
Proof. induction s as [|c s IH]; cbn; congruence. Qed.
Lemma drop_two n : drop 2 ("--" ++ n) = n.
Proof. unfold drop. cbn. rewrite Nat.sub_0_r. apply substring_all. Qed.
Lemma drop_one n : drop 1 ("-" ++ n) = n.
Proof. unfold drop. cbn. rewrite Nat.sub_0_r. apply substring_all. Qed.

(** * The options of a command *)
Definition own (c : command) : Prop := exists name, In (name, c) commands.
Definition all (c : command) : list fdef := help_flag :: flags_of (Some c).
Definition valued_def (f : fdef) : Prop := f_bool f = false.
Ltac each H := cbn in H; repeat (destruct H as [H|H]; [|]); try contradiction.
Lemma own_cases c : own c -> c = CVersion \/ c = CInit \/ c = CValidate.
Proof. intros (n & [H|[H|[H|[]]]]); injection H as _ <-; auto. Qed.
Ltac commands Hc := apply own_cases in Hc; destruct Hc as [-> |[-> | ->]].
Lemma valued_long c name s : own c -> In (name, s) (valued c) ->
  exists f, long_flag (all c) name = Some f /\ f_name f = name /\ f_bool f = false /\ has_equals name = false /\ name <> "help" /\
    (exists a r, name = String a r /\ Ascii.eqb a "-" = false /\ Ascii.eqb a "=" = false).
Proof.
  intros Hc H. commands Hc; each H; injection H as <- <-; eexists; (split; [reflexivity|]); (split; [reflexivity|]); (split; [reflexivity|]); (split; [reflexivity|]);
    (split; [discriminate|]); eexists; eexists; (split; [reflexivity|]); split; reflexivity.
Qed.
Lemma switch_long c name : own c -> In name switches ->
  exists f, long_flag (all c) name = Some f /\ f_name f = name /\ f_bool f = true /\ has_equals name = false /\ name <> "help" /\
    (exists a r, name = String a r /\ Ascii.eqb a "-" = false /\ Ascii.eqb a "=" = false).
Proof.
  intros Hc H. commands Hc; each H; subst; eexists; (split; [reflexivity|]); (split; [reflexivity|]); (split; [reflexivity|]); (split; [reflexivity|]);
    (split; [discriminate|]); eexists; eexists; (split; [reflexivity|]); split; reflexivity.
Qed.
Lemma valued_short c name s : own c -> In (name, s) (valued c) -> s <> "" ->
  exists f a, s = String a "" /\ short_flag (all c) a = Some f /\ f_name f = name /\ f_bool f = false /\ name <> "help" /\ Ascii.eqb a "-" = false /\ Ascii.eqb a "=" = false.
Proof.
  intros Hc H N. commands Hc; each H; injection H as <- <-; try (now elim N); eexists; eexists; (split; [reflexivity|]); repeat (split; [first [reflexivity|discriminate]|]); reflexivity.
Qed.
Lemma long_inv c name f : own c -> long_flag (all c) name = Some f ->
  name = f_name f /\ (f = help_flag \/ (f_bool f = false /\ exists s, In (name, s) (valued c)) \/ (f_bool f = true /\ In name switches)).
Proof.
  intros Hc H. apply find_some in H. destruct H as [Hi He]. apply String.eqb_eq in He. subst name. split; [reflexivity|].
  commands Hc; each Hi; subst f; first [now left|right; left; split; [reflexivity|]; eexists; cbn; eauto 6|right; right; split; [reflexivity|]; cbn; auto].
Qed.
Lemma short_inv c a f : own c -> short_flag (all c) a = Some f ->
  f = help_flag \/ (f_bool f = false /\ In (f_name f, String a "") (valued c)).
Proof.
  intros Hc H. apply find_some in H. destruct H as [Hi He]. apply String.eqb_eq in He.
  commands Hc; each Hi; subst f; cbn in He; try discriminate; first [now left|right; split; [reflexivity|]; rewrite <- He; cbn; auto].
Qed.

(** * Values *)
Lemma truth_parse t b : truth t b <-> parse_bool t = Some b.
Proof.
  unfold parse_bool, truth. split.
  - intros H. destruct b; each H; subst t; reflexivity.
  - destruct (existsb (String.eqb t) ["1"; "t"; "T"; "true"; "TRUE"; "True"]) eqn:E.
    + intros [= <-]. apply existsb_exists in E. destruct E as (x & Hx & ->%String.eqb_eq). exact Hx.
    + destruct (existsb (String.eqb t) ["0"; "f"; "F"; "false"; "FALSE"; "False"]) eqn:E'; [|discriminate].
      intros [= <-]. apply existsb_exists in E'. destruct E' as (x & Hx & ->%String.eqb_eq). exact Hx.
Qed.

(** * Tokens *)
Lemma short_step fs l c s : short_token fs l (String c s) =
  match short_flag fs c with
  | None => TBad UnknownFlag
  | Some f =>
      match s with
      | String e (String _ _ as v) => if Ascii.eqb e "=" then TSets (l ++ [(f, v)])
                                      else if f_bool f then short_token fs (l ++ [(f, "true")]) s
                                      else TSets (l ++ [(f, s)])
      | String _ EmptyString => if f_bool f then short_token fs (l ++ [(f, "true")]) s else TSets (l ++ [(f, s)])
      | EmptyString => if f_bool f then TSets (l ++ [(f, "true")]) else TNeeds l f
      end
  end.
Proof. destruct s as [|e [|g s]]; reflexivity. Qed.
Lemma token_word fs s : word s <-> token_of fs s = TWord.
Proof.
  unfold word. destruct s as [|c s]; [split; [reflexivity|discriminate]|]. cbn -[short_token long_token]. destruct (Ascii.eqb c "-") eqn:E.
  - apply Ascii.eqb_eq in E. subst c. destruct s as [|d s]; [split; [reflexivity|intros _ x [= <-]; reflexivity]|].
    split; [intros H; discriminate (H _ eq_refl)|]. intros H. exfalso. destruct (Ascii.eqb d "-").
    + destruct s as [|e s]; [discriminate|]. unfold long_token in H. destruct (Ascii.eqb e "-" || Ascii.eqb e "=")%bool; [discriminate|].
      destruct (split_equals _) as [n o]. destruct (long_flag fs n); [|discriminate]. destruct o; [discriminate|]. destruct (f_bool f); discriminate.
    + clear -H. revert H. generalize ([] : list (fdef * string)). generalize (String d s). clear. intros t. induction t as [|c t IH]; intros l H; [discriminate|]; rewrite short_step in H.
      destruct (short_flag fs c) as [f|]; [|discriminate]. destruct t as [|e [|g t]].
      * destruct (f_bool f); discriminate.
      * destruct (f_bool f); [|discriminate]. now apply IH in H.
      * destruct (Ascii.eqb e "="); [discriminate|]. destruct (f_bool f); [|discriminate]. now apply IH in H.
  - split; [reflexivity|]. intros _ x [= -> ->]. discriminate.
Qed.
Lemma token_end fs s : token_of fs s = TEnd <-> s = "--".
Proof.
  split; [|intros ->; reflexivity]. destruct s as [|c s]; [discriminate|]. cbn -[short_token long_token]. destruct (Ascii.eqb c "-") eqn:E; [|discriminate]. apply Ascii.eqb_eq in E. subst c.
  destruct s as [|d s]; [discriminate|]. destruct (Ascii.eqb d "-") eqn:E.
  - apply Ascii.eqb_eq in E. subst d. destruct s as [|e s]; [reflexivity|]. unfold long_token. destruct (Ascii.eqb e "-" || Ascii.eqb e "=")%bool; [discriminate|].
    destruct (split_equals _) as [n o]. destruct (long_flag fs n); [|discriminate]. destruct o; [discriminate|]. destruct (f_bool f); discriminate.
  - intros H. exfalso. revert H. generalize ([] : list (fdef * string)). generalize (String d s). clear. intros t. induction t as [|c t IH]; intros l H; [discriminate|]; rewrite short_step in H.
    destruct (short_flag fs c) as [f|]; [|discriminate]. destruct t as [|e [|g t]].
    + destruct (f_bool f); discriminate.
    + destruct (f_bool f); [|discriminate]. now apply IH in H.
    + destruct (Ascii.eqb e "="); [discriminate|]. destruct (f_bool f); [|discriminate]. now apply IH in H.
Qed.
(** One argument that sets an option *)
Lemma token_one c s name v : own c -> written c [s] name v -> name <> "help" /\ exists l, token_of (all c) s = TSets l /\ set_all l = Ok [(name, v)].
Proof.
  intros Hc H. inversion H as [|n x w Hi|n x w Hi Hn|n x w Hi Hn Hw|n x w Hi Hn Hw Hx|n Hi|n t b Hi Ht]; subst.
  - destruct (valued_long _ _ _ Hc Hi) as (f & Hf & E & B & Q & N & a & r & -> & D1 & D2). split; [exact N|]. exists [(f, v)]. split.
    + cbn -[all long_token]. unfold long_token. cbn [append]. rewrite D1, D2. cbn [orb].
      change (String a (r ++ String "=" v)) with (String a r ++ "=" ++ v)%string. rewrite (split_value _ v Q), Hf. reflexivity.
    + cbn. unfold set_value. now rewrite B, E.
  - destruct (valued_short _ _ _ Hc Hi Hn) as (f & a & -> & Hf & E & B & N & D1 & D2). split; [exact N|]. exists [(f, v)]. split.
    + destruct v as [|g v]; [congruence|]. cbn -[all]. rewrite D1. cbn -[all]. rewrite Hf. reflexivity.
    + cbn. unfold set_value. now rewrite B, E.
  - destruct (valued_short _ _ _ Hc Hi Hn) as (f & a & -> & Hf & E & B & N & D1 & D2). split; [exact N|]. exists [(f, v)]. split.
    + destruct v as [|g v]; [congruence|]. cbn -[all]. rewrite D1. cbn -[all]. rewrite Hf, B. destruct v as [|h v]; [reflexivity|].
      destruct (Ascii.eqb g "=") eqn:G; [|reflexivity]. apply Ascii.eqb_eq in G. subst g. discriminate (Hx (String h v) eq_refl).
    + cbn. unfold set_value. now rewrite B, E.
  - destruct (switch_long _ _ Hc Hi) as (f & Hf & E & B & Q & N & a & r & -> & D1 & D2). split; [exact N|]. exists [(f, "true")]. split.
    + cbn -[all long_token]. unfold long_token. rewrite D1, D2. cbn [orb]. rewrite (split_name _ Q), Hf, B. reflexivity.
    + cbn. unfold set_value. now rewrite B, E.
  - destruct (switch_long _ _ Hc Hi) as (f & Hf & E & B & Q & N & a & r & -> & D1 & D2). split; [exact N|]. exists [(f, t)]. split.
    + cbn -[all long_token]. unfold long_token. cbn [append]. rewrite D1, D2. cbn [orb].
      change (String a (r ++ String "=" t)) with (String a r ++ "=" ++ t)%string. rewrite (split_value _ t Q), Hf. reflexivity.
    + cbn. unfold set_value. apply truth_parse in Ht. rewrite B, Ht, E. now destruct b.
Qed.
Lemma token_two c s x name v : own c -> written c [s; x] name v -> name <> "help" /\ x = v /\ exists f, token_of (all c) s = TNeeds [] f /\ f_name f = name /\ f_bool f = false.
Proof.
  intros Hc H. inversion H as [n y w Hi| |n y w Hi Hn| | | |]; subst.
  - destruct (valued_long _ _ _ Hc Hi) as (f & Hf & E & B & Q & N & a & r & -> & D1 & D2). split; [exact N|]. split; [reflexivity|]. exists f. split; [|auto].
    cbn -[all long_token]. unfold long_token. rewrite D1, D2. cbn [orb]. rewrite (split_name _ Q), Hf, B. reflexivity.
  - destruct (valued_short _ _ _ Hc Hi Hn) as (f & a & -> & Hf & E & B & N & D1 & D2). split; [exact N|]. split; [reflexivity|]. exists f. split; [|auto].
    cbn -[all]. rewrite D1. cbn -[all]. now rewrite Hf, B.
Qed.
Lemma set_all_app a b r : set_all (a ++ b) = Ok r -> exists x y, set_all a = Ok x /\ set_all b = Ok y /\ r = x ++ y.
Proof.
  revert r; induction a as [|z a IH]; intros r H; cbn in *; [exists [], r; auto|].
  destruct (set_value z) as [y| |]; [|discriminate|discriminate]. cbn in *. destruct (set_all (a ++ b)) as [ys| |]; [|discriminate|discriminate]. cbn in H. injection H as <-.
  destruct (IH _ eq_refl) as (p & q & Hp & Hq & ->). rewrite Hp. cbn. eauto.
Qed.
Lemma short_sets c s : own c -> forall l r, (exists f, short_token (all c) l s = TNeeds r f) \/ short_token (all c) l s = TSets r -> exists r', r = l ++ r'.
Proof.
  intros Hc. induction s as [|a s IH]; intros l r H.
  - cbn in H. destruct H as [[f H]|H]; [discriminate|]. injection H as <-. exists []. now rewrite app_nil_r.
  - rewrite short_step in H. destruct (short_flag (all c) a) as [f|]; [|destruct H as [[f H]|H]; discriminate]. destruct s as [|e [|g s]].
    + destruct (f_bool f); destruct H as [[f' H]|H]; try discriminate; injection H as <-; [|exists []; now rewrite app_nil_r]; eauto.
    + destruct (f_bool f).
      * destruct (IH _ _ H) as [r' ->]. rewrite <- app_assoc. eauto.
      * destruct H as [[f' H]|H]; [discriminate|]. injection H as <-. eauto.
    + destruct (Ascii.eqb e "="); [destruct H as [[f' H]|H]; [discriminate|]; injection H as <-; eauto|]. destruct (f_bool f).
      * destruct (IH _ _ H) as [r' ->]. rewrite <- app_assoc. eauto.
      * destruct H as [[f' H]|H]; [discriminate|]. injection H as <-. eauto.
Qed.
Lemma help_first r ys : set_all ((help_flag, "true") :: r) = Ok ys -> In "help" (map fst ys).
Proof. cbn. destruct (set_all r); [|discriminate|discriminate]. cbn. intros [= <-]. now left. Qed.
Lemma set_one f v ys : set_all [(f, v)] = Ok ys -> exists x, ys = [(f_name f, x)] /\ (f_bool f = false -> x = v) /\ (f_bool f = true -> exists b, parse_bool v = Some b /\ x = truth_text b).
Proof.
  cbn. unfold set_value. destruct (f_bool f) eqn:B.
  - destruct (parse_bool v) as [b|]; [|discriminate]. cbn. intros [= <-]. exists (truth_text b). split; [now destruct b|]. split; [discriminate|]. eauto.
  - cbn. intros [= <-]. exists v. split; [reflexivity|]. split; [reflexivity|discriminate].
Qed.
Lemma token_sets c s l ys : own c -> token_of (all c) s = TSets l -> set_all l = Ok ys -> ~ In "help" (map fst ys) -> exists name v, ys = [(name, v)] /\ written c [s] name v.
Proof.
  intros Hc H Hs Hh. destruct s as [|a s]; [discriminate|]. cbn -[all short_token long_token] in H. destruct (Ascii.eqb a "-") eqn:E; [|discriminate]. apply Ascii.eqb_eq in E. subst a.
  destruct s as [|d s]; [discriminate|]. destruct (Ascii.eqb d "-") eqn:E.
  - apply Ascii.eqb_eq in E. subst d. destruct s as [|e s]; [discriminate|]. unfold long_token in H. destruct (Ascii.eqb e "-" || Ascii.eqb e "=")%bool; [discriminate|].
    destruct (split_equals (String e s)) as [n o] eqn:Es. destruct (long_flag (all c) n) as [f|] eqn:Ef; [|discriminate].
    destruct (long_inv _ _ _ Hc Ef) as (En & K). destruct o as [x|].
    + injection H as <-. destruct (set_one _ _ _ Hs) as (y & -> & Y1 & Y2). exists n, y. rewrite <- En in *. split; [reflexivity|]. apply split_some in Es. destruct Es as [-> Q].
      destruct K as [->|[[B [z Hz]]|[B Hz]]]; [elim Hh; rewrite En; now left| |].
      * rewrite (Y1 B). exact (w_equals c n z x Hz).
      * destruct (Y2 B) as (b & Hb & ->). apply truth_parse in Hb. exact (w_switch_to c n x b Hz Hb).
    + apply split_no in Es. destruct Es as [-> Q]. destruct (f_bool f) eqn:B; [|discriminate]. injection H as <-. destruct (set_one _ _ _ Hs) as (y & -> & Y1 & Y2).
      destruct (Y2 B) as (b & [= <-] & ->). exists n, "true". rewrite <- En in *. split; [reflexivity|].
      destruct K as [->|[[B' _]|[_ Hz]]]; [elim Hh; rewrite En; now left|congruence|]. exact (w_switch c n Hz).
  - rewrite short_step in H. cbn [app] in H. destruct (short_flag (all c) d) as [f|] eqn:Ef; [|discriminate]. destruct (short_inv _ _ _ Hc Ef) as [->|[B Hi]].
    + exfalso. apply Hh. cbn [f_bool help_flag] in H. destruct s as [|g [|h s]].
      * injection H as <-. injection Hs as <-. now left.
      * destruct (short_sets c (String g "") Hc [(help_flag, "true")] l (or_intror H)) as [r ->]. exact (help_first _ _ Hs).
      * destruct (Ascii.eqb g "=").
        -- injection H as <-. destruct (set_one _ _ _ Hs) as (y & -> & _). now left.
        -- destruct (short_sets c (String g (String h s)) Hc [(help_flag, "true")] l (or_intror H)) as [r ->]. exact (help_first _ _ Hs).
    + rewrite B in H. destruct s as [|g [|h s]]; [discriminate| |].
      * injection H as <-. destruct (set_one _ _ _ Hs) as (y & -> & Y1 & _). rewrite (Y1 B). exists (f_name f), (String g ""). split; [reflexivity|].
        apply (w_letter_joined c (f_name f) (String d "") (String g "") Hi); [discriminate|discriminate|]. intros x [= _ <-]. reflexivity.
      * destruct (Ascii.eqb g "=") eqn:G.
        -- apply Ascii.eqb_eq in G. subst g. injection H as <-. destruct (set_one _ _ _ Hs) as (y & -> & Y1 & _). rewrite (Y1 B). exists (f_name f), (String h s). split; [reflexivity|].
           apply (w_letter_equals c (f_name f) (String d "") (String h s) Hi); discriminate.
        -- injection H as <-. destruct (set_one _ _ _ Hs) as (y & -> & Y1 & _). rewrite (Y1 B). exists (f_name f), (String g (String h s)). split; [reflexivity|].
           apply (w_letter_joined c (f_name f) (String d "") (String g (String h s)) Hi); [discriminate|discriminate|]. intros x [= -> _]. discriminate.
Qed.
Lemma token_needs c s l f v y ys : own c -> token_of (all c) s = TNeeds l f -> set_all l = Ok ys -> set_value (f, v) = Ok y -> ~ In "help" (map fst (ys ++ [y])) ->
  exists name, ys = [] /\ y = (name, v) /\ written c [s; v] name v.
Proof.
  intros Hc H Hs Hy Hh. destruct s as [|a s]; [discriminate|]. cbn -[all short_token long_token] in H. destruct (Ascii.eqb a "-") eqn:E; [|discriminate]. apply Ascii.eqb_eq in E. subst a.
  destruct s as [|d s]; [discriminate|]. destruct (Ascii.eqb d "-") eqn:E.
  - apply Ascii.eqb_eq in E. subst d. destruct s as [|e s]; [discriminate|]. unfold long_token in H. destruct (Ascii.eqb e "-" || Ascii.eqb e "=")%bool; [discriminate|].
    destruct (split_equals (String e s)) as [n o] eqn:Es. destruct (long_flag (all c) n) as [f'|] eqn:Ef; [|discriminate].
    destruct (long_inv _ _ _ Hc Ef) as (En & K). destruct o as [x|]; [discriminate|]. destruct (f_bool f') eqn:B; [discriminate|]. injection H as <- <-. injection Hs as <-.
    apply split_no in Es. destruct Es as [-> Q]. destruct K as [->|[[_ [z Hz]]|[B' _]]]; [discriminate| |congruence].
    unfold set_value in Hy. rewrite B in Hy. injection Hy as <-. exists n. split; [reflexivity|]. rewrite <- En. split; [reflexivity|]. exact (w_next c n z v Hz).
  - rewrite short_step in H. cbn [app] in H. destruct (short_flag (all c) d) as [f'|] eqn:Ef; [|discriminate]. destruct (short_inv _ _ _ Hc Ef) as [->|[B Hi]].
    + exfalso. apply Hh. rewrite map_app, in_app_iff. left. cbn [f_bool help_flag] in H. destruct s as [|g [|h s]]; [discriminate| |].
      * destruct (short_sets c (String g "") Hc [(help_flag, "true")] l (or_introl (ex_intro _ f H))) as [r ->]. exact (help_first _ _ Hs).
      * destruct (Ascii.eqb g "="); [discriminate|]. destruct (short_sets c (String g (String h s)) Hc [(help_flag, "true")] l (or_introl (ex_intro _ f H))) as [r ->]. exact (help_first _ _ Hs).
    + rewrite B in H. destruct s as [|g [|h s]]; [|discriminate|destruct (Ascii.eqb g "="); discriminate]. injection H as <- <-. injection Hs as <-.
      unfold set_value in Hy. rewrite B in Hy. injection Hy as <-. exists (f_name f'). split; [reflexivity|]. split; [reflexivity|].
      apply (w_letter c (f_name f') (String d "") v Hi). discriminate.
Qed.
Lemma written_forms c toks name v : written c toks name v -> exists s, toks = [s] \/ toks = [s; v].
Proof. intros H. inversion H; subst; eexists; auto. Qed.

(** * The arguments of a command *)
Lemma parse_line c : own c -> forall args sets words, line c args sets words -> parse_args (all c) args = Ok (sets, words) /\ ~ In "help" (map fst sets).
Proof.
  intros Hc args sets words H. induction H as [|words|w args sets words Hw _ [IH Ih]|toks name v args sets words Hw _ [IH Ih]].
  - split; [reflexivity|]. intros [].
  - split; [reflexivity|]. intros [].
  - split; [|exact Ih]. apply (token_word (all c)) in Hw. cbn -[all token_of]. rewrite Hw, IH. reflexivity.
  - destruct (written_forms _ _ _ _ Hw) as (s & [-> | ->]).
    + destruct (token_one _ _ _ _ Hc Hw) as (N & l & Ht & Hs). cbn -[all token_of]. rewrite Ht, Hs. cbn -[all]. rewrite IH. split; [reflexivity|]. intros [E|E]; [congruence|now apply Ih].
    + destruct (token_two _ _ _ _ _ Hc Hw) as (N & _ & f & Ht & En & B). cbn -[all token_of]. rewrite Ht. cbn -[all]. rewrite B. cbn -[all]. rewrite IH, En. split; [reflexivity|].
      intros [E|E]; [congruence|now apply Ih].
Qed.
Lemma line_parse c : own c -> forall args sets words, parse_args (all c) args = Ok (sets, words) -> ~ In "help" (map fst sets) -> line c args sets words.
Proof.
  intros Hc args. remember (List.length args) as n eqn:Hn. assert (Hle : (List.length args <= n)%nat) by lia. clear Hn. revert args Hle.
  induction n as [|n IH]; intros args Hle sets words H Hh.
  - destruct args; [|cbn in Hle; lia]. injection H as <- <-. constructor.
  - destruct args as [|s rest]; [injection H as <- <-; constructor|]. cbn -[all token_of set_value set_all] in H, Hle. destruct (token_of (all c) s) as [| |e|l|l f] eqn:Et.
    + destruct (parse_args (all c) rest) as [[sets' words']| |] eqn:Ep; [|discriminate|discriminate]. cbn in H. injection H as <- <-.
      apply token_word in Et. constructor; [exact Et|]. apply IH; [lia|exact Ep|exact Hh].
    + injection H as <- <-. apply token_end in Et. subst s. constructor.
    + discriminate.
    + destruct (set_all l) as [ys| |] eqn:Es; [|discriminate|discriminate]. cbn -[all] in H. destruct (parse_args (all c) rest) as [[sets' words']| |] eqn:Ep; [|discriminate|discriminate].
      cbn in H. injection H as <- <-. rewrite map_app, in_app_iff in Hh. destruct (token_sets _ _ _ _ Hc Et Es (fun X => Hh (or_introl X))) as (name & v & -> & Hw).
      apply (l_option c [s] name v rest sets' words'); [exact Hw|]. apply IH; [lia|exact Ep|tauto].
    + destruct (set_all l) as [ys| |] eqn:Es; [|discriminate|discriminate]. cbn [obind] in H. destruct rest as [|v rest]; [discriminate|]. cbn in Hle.
      destruct (set_value (f, v)) as [y| |] eqn:Ey; [|discriminate|discriminate]. cbn [obind] in H. destruct (parse_args (all c) rest) as [[sets' words']| |] eqn:Ep; [|discriminate|discriminate].
      cbn in H. injection H as <- <-. change (y :: sets') with ([y] ++ sets') in Hh. rewrite app_assoc, map_app, in_app_iff in Hh.
      destruct (token_needs _ _ _ _ _ _ _ Hc Et Es Ey (fun X => Hh (or_introl X))) as (name & -> & -> & Hw). cbn.
      apply (l_option c [s; v] name v rest sets' words'); [exact Hw|]. apply IH; [lia|exact Ep|tauto].
Qed.

(** * Which command *)
Definition root := flags_of None.
Lemma neq_dash s : prefix "-" s = false -> s <> "--".
Proof. intros H ->. discriminate. Qed.
Lemma root_valued c name s : own c -> In (name, s) (valued c) -> no_value (long_flag root name) = false /\ name <> "" /\ (forall a, s = String a "" -> no_value (short_flag root a) = false).
Proof. intros Hc H. commands Hc; each H; injection H as <- <-; (split; [reflexivity|]); (split; [discriminate|]); intros a [= <-]; reflexivity. Qed.
Lemma dash_len s : prefix "--" s = false -> has_equals s = true \/ String.length s <> 2 -> takes_next root s = false.
Proof.
  intros H H'. unfold takes_next. rewrite H. cbn [andb orb]. destruct H' as [-> |N]; [now rewrite andb_false_r|]. apply Nat.eqb_neq in N. rewrite N. now rewrite !andb_false_r.
Qed.
Lemma equals_one s : has_equals s = true -> takes_next root s = false.
Proof. intros H. unfold takes_next. rewrite H. cbn. now rewrite !andb_false_r. Qed.
Lemma skip_one c s name v : own c -> written c [s] name v -> takes_next root s = false /\ s <> "--" /\ prefix "-" s = true.
Proof.
  intros Hc H. inversion H as [|n x w Hi|n x w Hi Hn|n x w Hi Hn Hw|n x w Hi Hn Hw Hx|n Hi|n t b Hi Ht]; subst.
  - split; [apply equals_one; cbn; rewrite ?has_app; cbn; rewrite ?orb_true_r; reflexivity|]. split; [|apply (prefix_app "-")]. destruct (root_valued _ _ _ Hc Hi) as (_ & N & _). intros E. cbn in E. injection E as E. destruct name; [now elim N|discriminate].
  - split; [apply equals_one; cbn; rewrite ?has_app; cbn; rewrite ?orb_true_r; reflexivity|]. split; [|apply (prefix_app "-")]. destruct (valued_short _ _ _ Hc Hi Hn) as (f & a & -> & _). intros E. cbn in E. injection E as _ E. discriminate.
  - destruct (valued_short _ _ _ Hc Hi Hn) as (f & a & -> & _ & _ & _ & _ & D & _). destruct v as [|g v]; [congruence|]. split; [|split; [cbn; discriminate|apply (prefix_app "-")]].
    apply dash_len; [|right; cbn; lia]. destruct (prefix "--" _) eqn:P; [|reflexivity]. apply prefix_eq in P. destruct P as [b P]. cbn in P. injection P as P _. subst a. discriminate.
  - each Hi. subst name. split; [reflexivity|]. split; [discriminate|reflexivity].
  - split; [apply equals_one; cbn; rewrite ?has_app; cbn; rewrite ?orb_true_r; reflexivity|]. split; [|apply (prefix_app "-")]. each Hi. subst name. discriminate.
Qed.
Lemma skip_two c s name v : own c -> written c [s; v] name v -> takes_next root s = true /\ s <> "--" /\ prefix "-" s = true.
Proof.
  intros Hc H. inversion H as [n y w Hi| |n y w Hi Hn| | | |]; subst.
  - destruct (root_valued _ _ _ Hc Hi) as (Hr & N & _). destruct (valued_long _ _ _ Hc Hi) as (f & _ & _ & _ & Q & _). split; [|split; [|apply (prefix_app "-")]].
    + change (takes_next root ("--" ++ name) = true). unfold takes_next. rewrite drop_two, Hr, prefix_app, has_app, Q. reflexivity.
    + intros E. cbn in E. injection E as E. congruence.
  - destruct (root_valued _ _ _ Hc Hi) as (_ & _ & Hr). destruct (valued_short _ _ _ Hc Hi Hn) as (f & a & -> & _ & _ & _ & _ & D & D'). split; [|split; [|apply (prefix_app "-")]].
    + change (takes_next root ("-" ++ String a "") = true). unfold takes_next. rewrite drop_one, (Hr a eq_refl). cbn. rewrite D'. cbn. now rewrite orb_true_r.
    + intros E. cbn in E. injection E as E. subst a. discriminate.
Qed.
(** What cobra passes over on its way to the command *)
Inductive blocks : list string -> Prop :=
| b_nil : blocks []
| b_one s l : s <> "--" -> takes_next root s = false -> s = "" \/ prefix "-" s = true -> blocks l -> blocks (s :: l)
| b_two s v l : s <> "--" -> takes_next root s = true -> blocks l -> blocks (s :: v :: l).
Lemma options_blocks c before sets : own c -> options c before sets -> blocks before.
Proof.
  intros Hc H. induction H as [|w args sets Hw H IH|toks name v args sets Hw H IH]; [constructor| |].
  - destruct Hw as [-> | ->]; apply b_one; auto; discriminate.
  - destruct (written_forms _ _ _ _ Hw) as (s & [-> | ->]).
    + destruct (skip_one _ _ _ _ Hc Hw) as (A & B & C). apply b_one; auto.
    + destruct (skip_two _ _ _ _ Hc Hw) as (A & B & C). apply b_two; auto.
Qed.
Lemma strip_pass before rest : blocks before -> rest <> [] -> strip_flags root (before ++ rest) = strip_flags root rest.
Proof.
  intros H Hr. induction H as [|s l N T D _ IH|s v l N T _ IH]; [reflexivity| |]; cbn [app strip_flags]; apply String.eqb_neq in N; rewrite N, T.
  - destruct D as [-> | ->]; [exact IH|]. now rewrite orb_true_r.
  - destruct (l ++ rest) eqn:E; [apply app_eq_nil in E; tauto|exact IH].
Qed.
Lemma minus_pass n before after : blocks before -> n <> "" -> prefix "-" n = false -> minus_first root n (before ++ n :: after) = Some (before ++ after).
Proof.
  intros H Hn Hp. induction H as [|s l N T D _ IH|s v l N T _ IH]; cbn [app minus_first].
  - rewrite (proj2 (String.eqb_neq _ _) (neq_dash _ Hp)). assert (T : takes_next root n = false).
    { unfold takes_next. rewrite Hp. destruct (prefix "--" n) eqn:E; [|reflexivity]. apply prefix_eq in E. destruct E as [b ->]. discriminate. }
    now rewrite T, Hp, String.eqb_refl.
  - apply String.eqb_neq in N. rewrite N, T, IH. destruct D as [-> | ->]; [|reflexivity]. cbn [prefix negb andb]. destruct (String.eqb_spec "" n); [congruence|reflexivity].
  - apply String.eqb_neq in N. now rewrite N, T, IH.
Qed.
Lemma strip_found args n tl : strip_flags root args = n :: tl -> exists before after, args = before ++ n :: after /\ blocks before /\ n <> "" /\ prefix "-" n = false.
Proof.
  remember (List.length args) as k eqn:Hk. assert (Hle : (List.length args <= k)%nat) by lia. clear Hk. revert args Hle.
  induction k as [|k IH]; intros args Hle H; (destruct args as [|s rest]; [discriminate|]); cbn in Hle; [lia|]. cbn [strip_flags] in H.
  destruct (String.eqb_spec s "--") as [|N]; [discriminate|]. destruct (takes_next root s) eqn:T.
  - destruct rest as [|v [|w rest]]; [discriminate|discriminate|]. destruct (IH (w :: rest)) as (before & after & E & B & X); [cbn in *; lia|exact H|].
    exists (s :: v :: before), after. rewrite E. split; [reflexivity|]. split; [now constructor|exact X].
  - destruct (String.eqb s "" || prefix "-" s)%bool eqn:P.
    + destruct (IH rest) as (before & after & E & B & X); [lia|exact H|]. exists (s :: before), after. rewrite E. split; [reflexivity|]. split; [|exact X].
      apply b_one; auto. apply orb_true_iff in P. destruct P as [P|P]; [left; now apply String.eqb_eq in P|now right].
    + injection H as <- _. apply orb_false_iff in P. destruct P as [P P']. exists [], rest. split; [reflexivity|]. split; [constructor|]. split; [now apply String.eqb_neq in P|exact P'].
Qed.
Lemma blocks_options c before : own c -> blocks before -> forall after sets words, parse_args (all c) (before ++ after) = Ok (sets, words) -> ~ In "help" (map fst sets) ->
  exists s1 s2 words', options c before s1 /\ line c after s2 words' /\ sets = s1 ++ s2.
Proof.
  intros Hc H. induction H as [|s l N T D _ IH|s v l N T _ IH]; intros after sets words Hp Hh.
  - exists [], sets, words. split; [constructor|]. split; [now apply line_parse|reflexivity].
  - cbn -[all token_of set_value set_all] in Hp. destruct (token_of (all c) s) as [| |e|ss|ss f] eqn:Et.
    + destruct (parse_args (all c) (l ++ after)) as [[sets' words']| |] eqn:Ep; [|discriminate|discriminate]. cbn in Hp. injection Hp as <- <-.
      destruct (IH _ _ _ Ep Hh) as (s1 & s2 & w & O & L & ->). exists s1, s2, w. split; [|auto]. apply o_skip; [|exact O]. destruct D as [-> |D]; [now left|right].
      apply token_word in Et. apply prefix_eq in D. destruct D as [b ->]. now rewrite (Et b eq_refl).
    + apply token_end in Et. congruence.
    + discriminate.
    + destruct (set_all ss) as [ys| |] eqn:Es; [|discriminate|discriminate]. cbn -[all] in Hp. destruct (parse_args (all c) (l ++ after)) as [[sets' words']| |] eqn:Ep; [|discriminate|discriminate].
      cbn in Hp. injection Hp as <- <-. rewrite map_app, in_app_iff in Hh. destruct (token_sets _ _ _ _ Hc Et Es (fun X => Hh (or_introl X))) as (name & v & -> & Hw).
      destruct (IH _ _ _ Ep (fun X => Hh (or_intror X))) as (s1 & s2 & w & O & L & ->). exists ((name, v) :: s1), s2, w. split; [exact (o_option c [s] name v l s1 Hw O)|]. auto.
    + exfalso. destruct (set_all ss) as [ys| |] eqn:Es; [|discriminate|discriminate]. cbn [obind] in Hp. destruct (l ++ after) as [|v rest]; [discriminate|].
      destruct (set_value (f, v)) as [y| |] eqn:Ey; [|discriminate|discriminate]. cbn [obind] in Hp. destruct (parse_args (all c) rest) as [[sets' words']| |] eqn:Ep; [|discriminate|discriminate].
      cbn in Hp. injection Hp as <- <-. change (y :: sets') with ([y] ++ sets') in Hh. rewrite app_assoc, map_app, in_app_iff in Hh.
      destruct (token_needs _ _ _ _ _ _ _ Hc Et Es Ey (fun X => Hh (or_introl X))) as (name & -> & -> & Hw). destruct (skip_two _ _ _ _ Hc Hw) as (X & _). congruence.
  - assert (Nw : ~ word s).
    { intros W. unfold takes_next in T. destruct (prefix "-" s) eqn:P.
      - apply prefix_eq in P. destruct P as [b ->]. rewrite (W b eq_refl) in T. discriminate.
      - destruct (prefix "--" s) eqn:P'; [|discriminate]. apply prefix_eq in P'. destruct P' as [b ->]. discriminate. }
    cbn -[all token_of set_value set_all] in Hp. destruct (token_of (all c) s) as [| |e|ss|ss f] eqn:Et.
    + apply token_word in Et. contradiction.
    + apply token_end in Et. congruence.
    + discriminate.
    + exfalso. destruct (set_all ss) as [ys| |] eqn:Es; [|discriminate|discriminate]. cbn [obind] in Hp.
      match type of Hp with obind ?x _ = _ => destruct x as [[sets' words']| |]; [|discriminate|discriminate] end.
      cbn in Hp. injection Hp as <- <-. rewrite map_app, in_app_iff in Hh. destruct (token_sets _ _ _ _ Hc Et Es (fun X => Hh (or_introl X))) as (name & w & -> & Hw).
      destruct (skip_one _ _ _ _ Hc Hw) as (X & _). congruence.
    + destruct (set_all ss) as [ys| |] eqn:Es; [|discriminate|discriminate]. cbn [obind] in Hp.
      destruct (set_value (f, v)) as [y| |] eqn:Ey; [|discriminate|discriminate]. cbn [obind] in Hp. destruct (parse_args (all c) (l ++ after)) as [[sets' words']| |] eqn:Ep; [|discriminate|discriminate].
      cbn in Hp. injection Hp as <- <-. change (y :: sets') with ([y] ++ sets') in Hh. rewrite app_assoc, map_app, in_app_iff in Hh.
      destruct (token_needs _ _ _ _ _ _ _ Hc Et Es Ey (fun X => Hh (or_introl X))) as (name & -> & -> & Hw).
      destruct (IH _ _ _ Ep (fun X => Hh (or_intror X))) as (s1 & s2 & w & O & L & ->). exists ((name, v) :: s1), s2, w. split; [exact (o_option c [s; v] name v l s1 Hw O)|]. auto.
Qed.
Lemma options_line c before s1 after s2 words : options c before s1 -> line c after s2 words -> exists words', line c (before ++ after) (s1 ++ s2) words'.
Proof.
  intros H L. induction H as [|w args sets Hw H [w' IH]|toks name v args sets Hw H [w' IH]].
  - now exists words.
  - exists (w :: w'). constructor; [|exact IH]. destruct Hw as [-> | ->]; intros x E; [discriminate|now injection E].
  - exists w'. rewrite <- app_assoc. now constructor.
Qed.
Lemma find_own args c rest : find_command args = Ok (Some c, rest) -> own c ->
  exists name before after, In (name, c) commands /\ args = before ++ name :: after /\ blocks before /\ rest = before ++ after.
Proof.
  unfold find_command. intros H Hc. fold root in H. destruct (strip_flags root args) as [|n tl] eqn:Es; [discriminate|].
  destruct (command_named n) as [c'|] eqn:En; [|discriminate]. injection H as <- <-.
  destruct (strip_found _ _ _ Es) as (before & after & -> & B & N & P). exists n, before, after. split; [|split; [reflexivity|split; [exact B|]]].
  - unfold command_named in En. destruct (String.eqb_spec n "version") as [->|]; [injection En as <-; cbn; auto|]. destruct (String.eqb_spec n "init") as [->|]; [injection En as <-; cbn; auto|].
    destruct (String.eqb_spec n "validate") as [->|]; [injection En as <-; cbn; auto|]. exfalso. apply own_cases in Hc.
    destruct (String.eqb n "help"); [injection En as <-; destruct Hc as [|[|]]; discriminate|]. destruct (String.eqb n "completion"); [injection En as <-; destruct Hc as [|[|]]; discriminate|discriminate].
  - now rewrite (minus_pass _ _ _ B N P).
Qed.
Lemma own_find c name before after : In (name, c) commands -> blocks before -> find_command (before ++ name :: after) = Ok (Some c, before ++ after).
Proof.
  intros Hn B. unfold find_command. fold root. rewrite (strip_pass _ _ B) by discriminate.
  assert (X : name <> "" /\ prefix "-" name = false /\ command_named name = Some c /\ exists tl, strip_flags root (name :: after) = name :: tl).
  { each Hn; injection Hn as <- <-; (split; [discriminate|]); (split; [reflexivity|]); (split; [reflexivity|]); eexists; reflexivity. }
  destruct X as (N & P & E & tl & ->). rewrite E. now rewrite (minus_pass _ _ _ B N P).
Qed.

(** * What is in force *)
Lemma value_last name l v : value_set name l = Some v <-> given_last l name v.
Proof.
  unfold value_set, given_last. revert v. induction l as [|[n x] l IH] using rev_ind; intros v; [split; [discriminate|intros ([|[] pre] & post & E & _); discriminate]|].
  rewrite fold_left_app. cbn. destruct (String.eqb_spec n name) as [->|N].
  - split; [intros [= ->]; exists l, []; auto|]. intros (pre & post & E & Nn). destruct post as [|y post _] using rev_ind.
    + apply app_inj_tail in E. destruct E as [_ E]. congruence.
    + rewrite app_comm_cons, app_assoc in E. apply app_inj_tail in E. destruct E as [_ <-]. elim Nn. rewrite map_app, in_app_iff. right. now left.
  - rewrite IH. split.
    + intros (pre & post & -> & Nn). exists pre, (post ++ [(n, x)]). split; [now rewrite <- app_assoc|]. rewrite map_app, in_app_iff. cbn. intros [?|[?|[]]]; [tauto|congruence].
    + intros (pre & post & E & Nn). destruct post as [|y post _] using rev_ind; [apply app_inj_tail in E; destruct E as [_ E]; congruence|].
      rewrite app_comm_cons, app_assoc in E. apply app_inj_tail in E. destruct E as [-> _]. exists pre, post. split; [reflexivity|]. intros H. apply Nn. rewrite map_app, in_app_iff. now left.
Qed.
Lemma value_none name l : value_set name l = None <-> ~ In name (map fst l).
Proof.
  split.
  - intros H Hi. unfold value_set in H. revert H. induction l as [|[n x] l IH] using rev_ind; [destruct Hi|]. rewrite fold_left_app. cbn. rewrite map_app, in_app_iff in Hi. cbn in Hi.
    destruct (String.eqb_spec n name) as [->|N]; [discriminate|]. apply IH. destruct Hi as [|[|[]]]; [assumption|congruence].
  - intros N. destruct (value_set name l) as [v|] eqn:E; [|reflexivity]. apply value_last in E. destruct E as (pre & post & -> & _). elim N. rewrite map_app, in_app_iff. right. now left.
Qed.
Lemma merged key l : lookup key (merge_config [] l) = value_set key l.
Proof.
  unfold merge_config, value_set. induction l as [|[n x] l IH] using rev_ind; [reflexivity|]. rewrite !fold_left_app. cbn [fold_left fst snd]. rewrite lookup_insert, IH, (String.eqb_sym key n). reflexivity.
Qed.
Lemma given_inj l name v w : given_last l name v -> given_last l name w -> v = w.
Proof. rewrite <- !value_last. congruence. Qed.
Lemma force env p file sets s f v b : p_config p = merge_config [] file -> p_defaults p = None -> lookup (s_key s) (p_flags p) = Some (Some (flag_after sets f)) -> lookup (s_key s) (p_env_vars p) = Some (s_env s) ->
  f_name f = s_option s -> f_default f = s_default s -> s_default s = "" \/ ~ Blank (s_default s) ->
  (get_string env p (s_key s) = Ok (v, b) <-> in_force env file sets s v b).
Proof.
  intros Hp Hd Hf He En Ed Hb.
  assert (Nb : forall x, negb (trims_to_empty x) = false -> Blank x).
  { intros x H. destruct (trims_to_empty x) eqn:E; [now apply trims_to_empty_Blank|discriminate]. }
  assert (Rest : (forall x, ~ by_option sets s x) -> forall d, d = (if in_dec string_dec (s_option s) (map fst sets) then "" else s_default s) ->
    (get_string_rest env p (s_key s) d = (v, b) <-> in_force env file sets s v b)).
  { intros No d Hdd. unfold get_string_rest. rewrite He, Hp, merged, Hd.
    assert (Hno : (forall x, ~ by_env env s x) -> match value_set (s_key s) file with Some v0 => (v0, false) | None => if negb (String.eqb d "") then (d, true) else ("", true) end = (v, b) <-> in_force env file sets s v b).
    { intros Ne. destruct (value_set (s_key s) file) as [w|] eqn:Ef.
      - apply value_last in Ef. split; [intros [= <- <-]; now apply f_file|]. intros H. inversion H as [? X|? ? X|? ? ? X|? ? X|? ? X]; subst; [destruct (No _ X)|destruct (Ne _ X)|now rewrite (given_inj _ _ _ _ Ef X)|destruct (X _ Ef)|destruct (X _ Ef)].
      - assert (Nf : forall x, ~ by_file file s x) by (intros x X; apply value_last in X; congruence).
        destruct (in_dec string_dec (s_option s) (map fst sets)) as [I|I].
        + subst d. cbn. split; [intros [= <- <-]; apply f_nothing; auto|]. intros H. inversion H as [? X|? ? X|? ? ? X|? ? ? X|? ? ? X]; subst; [destruct (No _ X)|destruct (Ne _ X)|destruct (Nf _ X)|contradiction|reflexivity].
        + destruct (String.eqb_spec d "") as [D|D]; cbn.
          * split; [intros [= <- <-]; apply f_nothing; auto; right; congruence|]. intros H. inversion H as [? X|? ? X|? ? ? X|? ? ? X|? ? ? X]; subst; [destruct (No _ X)|destruct (Ne _ X)|destruct (Nf _ X)|congruence|reflexivity].
          * rewrite Hdd in D |- *. split; [intros [= <- <-]; now apply f_unset|]. intros H. inversion H as [? X|? ? X|? ? ? X|? ? ? X|? ? ? X]; subst; [destruct (No _ X)|destruct (Ne _ X)|destruct (Nf _ X)|reflexivity|destruct X; [contradiction|congruence]]. }
    destruct (env (s_env s)) as [w|] eqn:Ew.
    - destruct (negb (trims_to_empty w)) eqn:Eb.
      + apply not_trims in Eb. split; [intros [= <- <-]; now apply f_env|]. intros H. assert (Y : by_env env s w) by (split; assumption).
        inversion H as [? X|? ? X|? ? X|? X|? X]; subst; [destruct (No _ X)|destruct X; congruence|destruct (X _ Y)|destruct (X _ Y)|destruct (X _ Y)].
      + apply Nb in Eb. apply Hno. intros x [X Y]. congruence.
    - apply Hno. intros x [X Y]. congruence. }
  unfold get_string. rewrite Hf. unfold flag_after in *. rewrite En. destruct (value_set (s_option s) sets) as [w|] eqn:Es; cbn [flag_value flag_changed].
  - destruct (negb (trims_to_empty w)) eqn:Eb.
    + apply not_trims in Eb. apply value_last in Es. split; [intros [= <- <-]; apply f_option; now split|]. intros H. assert (Y : by_option sets s w) by now split.
      inversion H as [? X|? X|? X|X|X]; subst; [destruct X as [X _]; now rewrite (given_inj _ _ _ _ Es X)|destruct (X _ Y)|destruct (X _ Y)|destruct (X _ Y)|destruct (X _ Y)].
    + apply Nb in Eb. assert (No : forall x, ~ by_option sets s x) by (intros x [X Y]; apply value_last in X; congruence).
      rewrite <- (Rest No "").
      * split; [now intros [= H]|now intros ->].
      * destruct (in_dec string_dec (s_option s) (map fst sets)) as [|N]; [reflexivity|]. apply value_none in N. congruence.
  - assert (No : forall x, ~ by_option sets s x) by (intros x [X Y]; apply value_last in X; congruence). apply value_none in Es.
    assert (I : (if in_dec string_dec (s_option s) (map fst sets) then "" else s_default s) = s_default s) by (destruct (in_dec string_dec (s_option s) (map fst sets)); [contradiction|reflexivity]).
    rewrite <- (Rest No (s_default s) (eq_sym I)). rewrite Ed. destruct (negb (trims_to_empty (s_default s))) eqn:Eb.
    + split; [now intros [= H]|now intros ->].
    + apply Nb in Eb. destruct Hb as [-> |Hb]; [|contradiction]. split; [now intros [= H]|now intros ->].
Qed.

(** * Help *)
Definition help_form (s : string) : Prop := exists x, s = ("--help" ++ x)%string \/ s = ("-h" ++ x)%string.
Lemma set_all_names l ys : set_all l = Ok ys -> map fst ys = map (fun x => f_name (fst x)) l.
Proof.
  revert ys; induction l as [|[f v] l IH]; intros ys H; cbn -[set_value] in *; [injection H as <-; reflexivity|]. destruct (set_value (f, v)) as [y| |] eqn:E; [|discriminate|discriminate]. cbn in H.
  destruct (set_all l) as [ys'| |]; [|discriminate|discriminate]. cbn in H. injection H as <-. cbn. rewrite (IH _ eq_refl). f_equal. unfold set_value in E.
  destruct (f_bool f); [destruct (parse_bool v); [|discriminate]|]; injection E as <-; reflexivity.
Qed.
Lemma token_help c s l : own c -> token_of (all c) s = TSets l \/ (exists f, token_of (all c) s = TNeeds l f) -> In "help" (map (fun x => f_name (fst x)) l) -> help_form s.
Proof.
  intros Hc H Hi. destruct s as [|a s]; [destruct H as [H|[f H]]; discriminate|]. cbn -[all short_token long_token] in H. destruct (Ascii.eqb a "-") eqn:E; [|destruct H as [H|[f H]]; discriminate].
  apply Ascii.eqb_eq in E. subst a. destruct s as [|d s]; [destruct H as [H|[f H]]; discriminate|]. destruct (Ascii.eqb d "-") eqn:E.
  - apply Ascii.eqb_eq in E. subst d. destruct s as [|e s]; [destruct H as [H|[f H]]; discriminate|]. unfold long_token in H. destruct (Ascii.eqb e "-" || Ascii.eqb e "=")%bool; [destruct H as [H|[f H]]; discriminate|].
    destruct (split_equals (String e s)) as [n o] eqn:Es. destruct (long_flag (all c) n) as [f|] eqn:Ef; [|destruct H as [H|[f H]]; discriminate].
    destruct (long_inv _ _ _ Hc Ef) as (En & _).
    assert (X : n = "help").
    { destruct o as [x|]; [|destruct (f_bool f)]; destruct H as [H|[g H]]; try discriminate; injection H as <-; try (intros; subst); cbn in Hi; try (destruct Hi as [Hi|[]]; congruence); destruct Hi. }
    subst n. clear -Es X. rewrite X in Es. destruct o as [x|]; [apply split_some in Es|apply split_no in Es]; destruct Es as [-> _]; [exists ("=" ++ x)%string|exists ""]; left; reflexivity.
  - rewrite short_step in H. cbn [app] in H. destruct (short_flag (all c) d) as [f|] eqn:Ef; [|destruct H as [H|[f H]]; discriminate].
    destruct (short_inv _ _ _ Hc Ef) as [->|[B Hv]].
    + unfold short_flag in Ef. apply find_some in Ef. destruct Ef as [_ Ef]. apply String.eqb_eq in Ef. cbn in Ef. injection Ef as <-. exists s. right. reflexivity.
    + exfalso. assert (N : f_name f <> "help") by (destruct (valued_long _ _ _ Hc Hv) as (_ & _ & _ & _ & _ & N & _); exact N).
      rewrite B in H. destruct s as [|g [|h s]]; [|..|destruct (Ascii.eqb g "=")]; destruct H as [H|[f' H]]; try discriminate; injection H as <-; try (intros; subst); cbn in Hi; try (destruct Hi as [Hi|[]]; congruence); destruct Hi.
Qed.
Lemma parse_help c : own c -> forall args sets words, parse_args (all c) args = Ok (sets, words) -> In "help" (map fst sets) -> mentions_help args.
Proof.
  intros Hc args. remember (List.length args) as n eqn:Hn. assert (Hle : (List.length args <= n)%nat) by lia. clear Hn. revert args Hle.
  assert (Form : forall s args, help_form s -> In s args -> mentions_help args) by (intros s args [x H] Hi; exists s, x; auto).
  assert (More : forall s args, mentions_help args -> mentions_help (s :: args)) by (intros s args (t & x & Hi & H); exists t, x; cbn; auto).
  induction n as [|n IH]; intros args Hle sets words H Hh.
  - destruct args; [|cbn in Hle; lia]. injection H as <- <-. destruct Hh.
  - destruct args as [|s rest]; [injection H as <- <-; destruct Hh|]. cbn -[all token_of set_value set_all] in H, Hle. destruct (token_of (all c) s) as [| |e|l|l f] eqn:Et.
    + destruct (parse_args (all c) rest) as [[sets' words']| |] eqn:Ep; [|discriminate|discriminate]. cbn in H. injection H as <- <-. apply More. apply (IH rest ltac:(lia) _ _ Ep Hh).
    + injection H as <- <-. destruct Hh.
    + discriminate.
    + destruct (set_all l) as [ys| |] eqn:Es; [|discriminate|discriminate]. cbn -[all] in H. destruct (parse_args (all c) rest) as [[sets' words']| |] eqn:Ep; [|discriminate|discriminate].
      cbn in H. injection H as <- <-. rewrite map_app, in_app_iff in Hh. destruct Hh as [Hh|Hh]; [|apply More; apply (IH rest ltac:(lia) _ _ Ep Hh)].
      rewrite (set_all_names _ _ Es) in Hh. apply (Form s); [|now left]. exact (token_help _ _ _ Hc (or_introl Et) Hh).
    + destruct (set_all l) as [ys| |] eqn:Es; [|discriminate|discriminate]. cbn [obind] in H. destruct rest as [|v rest]; [discriminate|]. cbn in Hle.
      destruct (set_value (f, v)) as [y| |] eqn:Ey; [|discriminate|discriminate]. cbn [obind] in H. destruct (parse_args (all c) rest) as [[sets' words']| |] eqn:Ep; [|discriminate|discriminate].
      cbn in H. injection H as <- <-. rewrite map_app, in_app_iff in Hh. destruct Hh as [Hh|[Hh|Hh]].
      * rewrite (set_all_names _ _ Es) in Hh. apply (Form s); [|now left]. exact (token_help _ _ _ Hc (or_intror (ex_intro _ f Et)) Hh).
      * destruct (string_dec (f_name f) "help") as [X|X].
        -- exfalso. assert (Hb : f_bool f = false).
           { clear -Hc Et. destruct s as [|a s]; [discriminate|]. cbn -[all short_token long_token] in Et. destruct (Ascii.eqb a "-"); [|discriminate]. destruct s as [|d s]; [discriminate|]. destruct (Ascii.eqb d "-").
             - destruct s as [|e s]; [discriminate|]. unfold long_token in Et. destruct (Ascii.eqb e "-" || Ascii.eqb e "=")%bool; [discriminate|]. destruct (split_equals _) as [m o]. destruct (long_flag (all c) m) as [g|]; [|discriminate].
               destruct o; [discriminate|]. destruct (f_bool g) eqn:B; [discriminate|]. injection Et as _ <-. exact B.
             - revert Et. generalize ([] : list (fdef * string)). generalize (String d s). clear. intros t. induction t as [|a t IH]; intros l0 H; [discriminate|]. rewrite short_step in H.
               destruct (short_flag (all c) a) as [g|]; [|discriminate]. destruct t as [|e [|h t]].
               + destruct (f_bool g) eqn:B; [discriminate|]. injection H as _ <-. exact B.
               + destruct (f_bool g); [|discriminate]. exact (IH _ H).
               + destruct (Ascii.eqb e "="); [discriminate|]. destruct (f_bool g); [|discriminate]. exact (IH _ H). }
           assert (Hin : In f (all c)).
           { clear -Et. destruct s as [|a s]; [discriminate|]. cbn -[all short_token long_token] in Et. destruct (Ascii.eqb a "-"); [|discriminate]. destruct s as [|d s]; [discriminate|]. destruct (Ascii.eqb d "-").
             - destruct s as [|e s]; [discriminate|]. unfold long_token in Et. destruct (Ascii.eqb e "-" || Ascii.eqb e "=")%bool; [discriminate|]. destruct (split_equals _) as [m o]. destruct (long_flag (all c) m) as [g|] eqn:E; [|discriminate].
               destruct o; [discriminate|]. destruct (f_bool g); [discriminate|]. injection Et as _ <-. apply find_some in E. tauto.
             - revert Et. generalize ([] : list (fdef * string)). generalize (String d s). clear. intros t. induction t as [|a t IH]; intros l0 H; [discriminate|]. rewrite short_step in H.
               destruct (short_flag (all c) a) as [g|] eqn:E; [|discriminate]. destruct t as [|e [|h t]].
               + destruct (f_bool g); [discriminate|]. injection H as _ <-. apply find_some in E. tauto.
               + destruct (f_bool g); [|discriminate]. exact (IH _ H).
               + destruct (Ascii.eqb e "="); [discriminate|]. destruct (f_bool g); [|discriminate]. exact (IH _ H). }
           commands Hc; each Hin; subst f; discriminate.
        -- exfalso. unfold set_value in Ey. destruct (f_bool f); [destruct (parse_bool v); [|discriminate]|]; injection Ey as <-; cbn in Hh; congruence.
      * apply More, More. apply (IH rest ltac:(lia) _ _ Ep Hh).
Qed.

(** * Errors and names *)
Lemma set_all_no_panic l : set_all l <> Panic.
Proof.
  induction l as [|[f v] l IH]; cbn; [discriminate|]. unfold set_value. destruct (f_bool f); [destruct (parse_bool v); [|discriminate]|]; cbn; destruct (set_all l); cbn; congruence.
Qed.
Lemma parse_no_panic fs : forall args, parse_args fs args <> Panic.
Proof.
  intros args. remember (List.length args) as n eqn:Hn. assert (Hle : (List.length args <= n)%nat) by lia. clear Hn. revert args Hle.
  induction n as [|n IH]; intros args Hle; (destruct args as [|s rest]; [discriminate|]); cbn in Hle; [lia|]. cbn -[token_of set_value set_all]. destruct (token_of fs s) as [| |e|l|l f].
  - specialize (IH rest ltac:(lia)). destruct (parse_args fs rest) as [[]| |]; cbn; congruence.
  - discriminate.
  - discriminate.
  - assert (X := set_all_no_panic l). destruct (set_all l); cbn [obind]; [|discriminate|contradiction]. specialize (IH rest ltac:(lia)). destruct (parse_args fs rest) as [[]| |]; cbn; congruence.
  - assert (X := set_all_no_panic l). destruct (set_all l); cbn [obind]; [|discriminate|contradiction]. destruct rest as [|v rest]; [discriminate|]. cbn in Hle.
    specialize (IH rest ltac:(lia)). unfold set_value. destruct (f_bool f); [destruct (parse_bool v); [|discriminate]|]; cbn [obind]; destruct (parse_args fs rest) as [[]| |]; cbn; congruence.
Qed.
Lemma token_in fs s l f : token_of fs s = TSets l \/ token_of fs s = TNeeds l f -> (forall x, In x l -> In (fst x) fs) /\ (token_of fs s = TNeeds l f -> In f fs).
Proof.
  intros H. destruct s as [|a s]; [destruct H; discriminate|]. cbn -[short_token long_token] in *. destruct (Ascii.eqb a "-"); [|destruct H; discriminate]. destruct s as [|d s]; [destruct H; discriminate|]. destruct (Ascii.eqb d "-").
  - destruct s as [|e s]; [destruct H; discriminate|]. unfold long_token in *. destruct (Ascii.eqb e "-" || Ascii.eqb e "=")%bool; [destruct H; discriminate|]. destruct (split_equals _) as [m o].
    destruct (long_flag fs m) as [g|] eqn:E; [|destruct H; discriminate]. apply find_some in E. destruct E as [E _].
    destruct o; [|destruct (f_bool g)]; destruct H as [H|H]; try discriminate; injection H as <-; try (intros; subst); (split; [|intros X; first [discriminate|exact E]]); intros x Hx; cbn in Hx;
      try (destruct Hx as [<-|[]]; exact E); destruct Hx.
  - assert (G : forall t l0, (forall x, In x l0 -> In (fst x) fs) -> short_token fs l0 t = TSets l \/ short_token fs l0 t = TNeeds l f -> (forall x, In x l -> In (fst x) fs) /\ (short_token fs l0 t = TNeeds l f -> In f fs)).
    { clear. intros t. induction t as [|a t IH]; intros l0 H0 H; [destruct H as [H|H]; [|discriminate]; injection H as <-; split; [exact H0|discriminate]|]. rewrite short_step in *.
      destruct (short_flag fs a) as [g|] eqn:E; [|destruct H; discriminate]. apply find_some in E. destruct E as [E _].
      assert (K : forall v, forall x, In x (l0 ++ [(g, v)]) -> In (fst x) fs) by (intros v x Hx; apply in_app_iff in Hx; destruct Hx as [Hx|[<-|[]]]; [now apply H0|exact E]).
      destruct t as [|e [|h t]].
      - destruct (f_bool g); destruct H as [H|H]; try discriminate; injection H as <-; try (intros; subst); (split; [first [apply K|exact H0]|intros X; first [discriminate|exact E]]).
      - destruct (f_bool g); [apply (IH (l0 ++ [(g, "true")])); [apply K|exact H]|]. destruct H as [H|H]; [|discriminate]. injection H as <-. split; [apply K|discriminate].
      - destruct (Ascii.eqb e "="); [destruct H as [H|H]; [|discriminate]; injection H as <-; split; [apply K|discriminate]|].
        destruct (f_bool g); [apply (IH (l0 ++ [(g, "true")])); [apply K|exact H]|]. destruct H as [H|H]; [|discriminate]. injection H as <-. split; [apply K|discriminate]. }
    apply (G (String d s) []); [intros x []|exact H].
Qed.
Lemma parse_names c : own c -> forall args sets words, parse_args (all c) args = Ok (sets, words) -> forall name, In name (map fst sets) -> In name (map f_name (all c)).
Proof.
  intros Hc args. remember (List.length args) as n eqn:Hn. assert (Hle : (List.length args <= n)%nat) by lia. clear Hn. revert args Hle.
  assert (S : forall l ys, set_all l = Ok ys -> (forall x, In x l -> In (fst x) (all c)) -> forall name, In name (map fst ys) -> In name (map f_name (all c))).
  { intros l ys Es Hl name Hi. rewrite (set_all_names _ _ Es) in Hi. apply in_map_iff in Hi. destruct Hi as (x & <- & Hx). apply in_map_iff. exists (fst x). auto. }
  induction n as [|n IH]; intros args Hle sets words H name Hi; (destruct args as [|s rest]; [injection H as <- <-; destruct Hi|]); cbn in Hle; [lia|].
  cbn -[all token_of set_value set_all] in H. destruct (token_of (all c) s) as [| |e|l|l f] eqn:Et.
  - destruct (parse_args (all c) rest) as [[sets' words']| |] eqn:Ep; [|discriminate|discriminate]. cbn in H. injection H as <- <-. apply (IH rest ltac:(lia) _ _ Ep _ Hi).
  - injection H as <- <-. destruct Hi.
  - discriminate.
  - destruct (set_all l) as [ys| |] eqn:Es; [|discriminate|discriminate]. cbn -[all] in H. destruct (parse_args (all c) rest) as [[sets' words']| |] eqn:Ep; [|discriminate|discriminate].
    cbn in H. injection H as <- <-. rewrite map_app, in_app_iff in Hi. destruct Hi as [Hi|Hi]; [|apply (IH rest ltac:(lia) _ _ Ep _ Hi)].
    apply (S _ _ Es); [|exact Hi]. apply (proj1 (token_in _ _ l help_flag (or_introl Et))).
  - destruct (set_all l) as [ys| |] eqn:Es; [|discriminate|discriminate]. cbn [obind] in H. destruct rest as [|v rest]; [discriminate|]. cbn in Hle.
    destruct (set_value (f, v)) as [y| |] eqn:Ey; [|discriminate|discriminate]. cbn [obind] in H. destruct (parse_args (all c) rest) as [[sets' words']| |] eqn:Ep; [|discriminate|discriminate].
    cbn in H. injection H as <- <-. rewrite map_app, in_app_iff in Hi. destruct (token_in _ _ l f (or_intror Et)) as [T1 T2]. destruct Hi as [Hi|[Hi|Hi]].
    + apply (S _ _ Es T1 _ Hi).
    + subst name. apply in_map_iff. exists f. split; [|exact (T2 Et)]. unfold set_value in Ey. destruct (f_bool f); [destruct (parse_bool v); [|discriminate]|]; injection Ey as <-; reflexivity.
    + apply (IH rest ltac:(lia) _ _ Ep _ Hi).
Qed.
Lemma parse_bad c o sets t e rest : own c -> options c o sets -> token_of (all c) t = TBad e -> parse_args (all c) (o ++ t :: rest) = Err e.
Proof.
  intros Hc O Ht. induction O as [|w args sets Hw O IH|toks name v args sets Hw O IH].
  - cbn -[all token_of]. now rewrite Ht.
  - cbn -[all token_of]. rewrite (proj1 (token_word (all c) w)); [now rewrite IH|]. destruct Hw as [-> | ->]; intros x E; [discriminate|now injection E].
  - destruct (written_forms _ _ _ _ Hw) as (s & [-> | ->]).
    + destruct (token_one _ _ _ _ Hc Hw) as (N & l & Hl & Hs). cbn -[all token_of]. rewrite Hl, Hs. cbn -[all]. now rewrite IH.
    + destruct (token_two _ _ _ _ _ Hc Hw) as (N & _ & f & Hl & En & B). cbn -[all token_of]. rewrite Hl. cbn -[all]. rewrite B. cbn -[all]. now rewrite IH.
Qed.
Lemma blocks_app a b : blocks a -> blocks b -> blocks (a ++ b).
Proof. intros H Hb. induction H; [exact Hb|apply b_one; assumption|apply b_two; assumption]. Qed.
