(** Parsing a template function call ends for every text. *)
From Verif Require Import Base Chars ScannerModel ScannerSpec ScannerProofs SubstScan ResolveModel TemplateParserModel TemplateParserSpec TemplateParserProofs.
Local Open Scope list_scope.

(** The scanner has only moved forward; saved positions may have been left on the stack. *)
Definition fwd (s s' : scanner) : Prop :=
  sc_chars s' = sc_chars s /\ sc_pos s <= sc_pos s' /\
  exists lk, sc_stack s' = lk ++ sc_stack s /\ Forall (fun p => sc_pos s <= p) lk.
Lemma fwd_refl s : fwd s s.
Proof. split; [reflexivity|]. split; [lia|]. exists []. auto. Qed.
Lemma fwd_trans a b c : fwd a b -> fwd b c -> fwd a c.
Proof.
  intros (H1 & H2 & l1 & H3 & H4) (K1 & K2 & l2 & K3 & K4). split; [congruence|]. split; [lia|]. exists (l2 ++ l1). split; [rewrite K3, H3; apply app_assoc|].
  apply Forall_app. split; [|exact H4]. eapply Forall_impl; [|exact K4]. cbn. intros p Hp. lia.
Qed.
Lemma fwd_at s p : sc_pos s <= p -> fwd s (at_pos s p).
Proof. intros H. split; [reflexivity|]. split; [exact H|]. exists []. auto. Qed.
Lemma fwd_back s s' : fwd (save_pos s) s' -> fwd s (backtrack s').
Proof.
  intros (H1 & H2 & lk & H3 & H4). cbn in *. unfold backtrack. rewrite H3. destruct lk as [|p lk]; cbn.
  - split; [exact H1|]. split; [cbn; lia|]. exists []. auto.
  - inversion H4; subst. split; [exact H1|]. split; [assumption|]. exists (lk ++ [sc_pos s]). cbn. split; [now rewrite <- app_assoc|]. apply Forall_app. split; [assumption|]. constructor; [lia|constructor].
Qed.
Lemma fwd_pop s s' : fwd (save_pos s) s' -> fwd s (pop_pos s').
Proof.
  intros (H1 & H2 & lk & H3 & H4). cbn in *. split; [exact H1|]. split; [exact H2|]. unfold pop_pos. cbn. rewrite H3. destruct lk as [|p lk]; cbn.
  - exists []. auto.
  - inversion H4; subst. exists (lk ++ [sc_pos s]). split; [now rewrite <- app_assoc|]. apply Forall_app. split; [assumption|]. constructor; [lia|constructor].
Qed.
Definition rem (s : scanner) : nat := length (sc_chars s) - sc_pos s.
Lemma fwd_rem s s' : fwd s s' -> rem s' <= rem s.
Proof. intros (H1 & H2 & _). unfold rem. rewrite H1. lia. Qed.
Lemma peek_lt s c : peek s = Some c -> sc_pos s < length (sc_chars s).
Proof. unfold peek. intros H. apply nth_error_Some. congruence. Qed.
Lemma fwd_lt s s' c : fwd s s' -> peek s = Some c -> sc_pos s < sc_pos s' -> rem s' < rem s.
Proof. intros (H1 & _) H2 H3. apply peek_lt in H2. unfold rem. rewrite H1. lia. Qed.

Section Params.
Variable k : classes.
Variable P : Type.
Variable parse_path : text -> option P.
Variable F : Type.
Variable parse_float : text -> option F.
Notation func_call := (func_call k P parse_path F parse_float).
Notation func_args := (func_args k P parse_path F parse_float).
Notation args_loop := (args_loop k P parse_path F parse_float).
Notation func_arg := (func_arg k P parse_path F parse_float).
Notation others := (others P F parse_float).
Notation skip_blanks := (skip_blanks k).

Lemma skip_fwd s : fwd s (skip_blanks s).
Proof. unfold TemplateParserModel.skip_blanks, take_while. cbn [snd]. apply fwd_at. lia. Qed.
Lemma skip_same s c : peek s = Some c -> whitespace k c = false -> skip_blanks s = s.
Proof.
  intros H Hw. unfold TemplateParserModel.skip_blanks, take_while. change (skipn (sc_pos s) (sc_chars s)) with (rest_of s). rewrite peek_rest in H.
  destruct (rest_of s) as [|d r]; [discriminate|]. injection H as ->. cbn [span]. rewrite Hw. cbn [fst snd length]. destruct s. unfold at_pos. cbn. f_equal. lia.
Qed.
Lemma take_fwd c s b s' : take c s = (b, s') -> fwd s s' /\ (b = true -> sc_pos s < sc_pos s' /\ peek s = Some c) /\ (b = false -> s' = s /\ peek s <> Some c).
Proof.
  unfold take, peek. destruct (nth_error (sc_chars s) (sc_pos s)) as [d|]; [destruct (N.eqb_spec c d) as [->|Hne]|]; intros H; injection H as <- <-.
  - split; [apply fwd_at; lia|]. split; [intros _; split; [cbn; lia|reflexivity]|discriminate].
  - split; [apply fwd_refl|]. split; [discriminate|]. intros _. split; [reflexivity|congruence].
  - split; [apply fwd_refl|]. split; [discriminate|]. intros _. split; [reflexivity|discriminate].
Qed.
Lemma name_fwd s r s' : func_name k s = (r, s') -> fwd s s' /\ (forall n, r = inl n -> rem s' < rem s /\ sc_pos s < sc_pos s') /\ r <> inr TFuel.
Proof.
  unfold func_name. pose proof (skip_fwd s) as H0. set (s1 := skip_blanks s) in *. destruct (peek s1) as [c|] eqn:Ep; [destruct (name_start k c)|].
  - unfold take_while. intros H. injection H as <- <-. unfold pop. pose proof Ep as Ep'. unfold peek in Ep'. rewrite Ep'. cbn [snd sc_pos].
    match goal with |- fwd s ?x /\ _ => assert (E : fwd s1 x) by (split; [reflexivity|split; [cbn; lia|exists []; auto]]); assert (L : sc_pos s1 < sc_pos x) by (cbn; lia) end.
    split; [eapply fwd_trans; eassumption|]. split; [|discriminate]. intros n _. pose proof (fwd_lt _ _ _ E Ep L). pose proof (fwd_rem _ _ H0). destruct H0 as (_ & H0 & _). split; lia.
  - intros H. injection H as <- <-. split; [exact H0|]. split; discriminate.
  - intros H. injection H as <- <-. split; [exact H0|]. split; discriminate.
Qed.
(** What every literal does *)
Definition good {A} (s : scanner) (x : (A + terr) * scanner) : Prop :=
  fwd s (snd x) /\ (forall a, fst x = inl a -> sc_pos s < sc_pos (snd x)) /\ fst x <> inr TFuel.
Lemma good_back {A} s s1 e : fwd (save_pos s) s1 -> e <> TFuel -> good s ((inr e : A + terr), backtrack s1).
Proof. intros H He. split; [now apply fwd_back|]. split; [discriminate|]. cbn. congruence. Qed.
Lemma good_pop {A} s s1 (a : A) : fwd (save_pos s) s1 -> sc_pos s < sc_pos s1 -> good s ((inl a : A + terr), pop_pos s1).
Proof. intros H Hl. split; [now apply fwd_pop|]. split; [intros _ _; exact Hl|discriminate]. Qed.
Lemma scan_loop_pos {T} (cb : text -> option (scan_action T)) rest : forall seq req rq pos r p, scan_loop cb seq req rq pos rest = (r, p) -> pos <= p /\ (forall t, rq = None -> r = inl (Some t) -> pos < p).
Proof.
  induction rest as [|c rest IH]; intros seq req rq pos r p; cbn [scan_loop].
  - destruct req; intros H; injection H as <- <-; (split; [lia|]); [discriminate|]. intros t -> H. discriminate.
  - destruct (cb (seq ++ [c])) as [[t| |t]|].
    + intros H. destruct (IH _ _ _ _ _ _ H) as [H1 H2]. split; [lia|]. intros. lia.
    + intros H. destruct (IH _ _ _ _ _ _ H) as [H1 H2]. split; [lia|]. intros. lia.
    + intros H. injection H as <- <-. split; [lia|]. intros. lia.
    + destruct req; intros H; injection H as <- <-; (split; [lia|]); [discriminate|]. intros t -> H. discriminate.
Qed.
Lemma literal_good cb s : good s (literal P F cb s).
Proof.
  unfold literal, scan. destruct (scan_loop cb [] false None (sc_pos (save_pos s)) _) as [r p] eqn:E. destruct (scan_loop_pos _ _ _ _ _ _ _ _ E) as [H1 H2].
  assert (W : fwd (save_pos s) (at_pos (save_pos s) p)) by (apply fwd_at; exact H1).
  destruct r as [[e|]|[q|]].
  - apply good_pop; [exact W|]. exact (H2 e eq_refl eq_refl).
  - now apply good_back.
  - split; [|split; discriminate]. split; [reflexivity|]. split; [exact H1|]. exists [sc_pos s]. split; [reflexivity|]. constructor; [cbn; lia|constructor].
  - split; [|split; discriminate]. split; [reflexivity|]. split; [exact H1|]. exists [sc_pos s]. split; [reflexivity|]. constructor; [cbn; lia|constructor].
Qed.
Lemma float_good s : good s (float_literal P F parse_float s).
Proof.
  unfold float_literal. destruct (float_span _ _ _) as [t p].
  assert (W : fwd (save_pos s) (at_pos (save_pos s) (sc_pos (save_pos s) + length t))) by (apply fwd_at; lia).
  destruct t as [|c t]; [now apply good_back|]. destruct p; cbn [negb]; [|now apply good_back]. destruct (parse_float (c :: t)); [|now apply good_back]. apply good_pop; [exact W|cbn; lia].
Qed.
Lemma int_good s : good s (int_literal P F s).
Proof.
  unfold int_literal. set (t := int_span _ _).
  assert (W : fwd (save_pos s) (at_pos (save_pos s) (sc_pos (save_pos s) + length t))) by (apply fwd_at; lia).
  destruct t as [|c t]; [now apply good_back|]. destruct (parse_i64 (c :: t)); [|now apply good_back]. apply good_pop; [exact W|cbn; lia].
Qed.
Lemma string_good s : good s (string_literal P F s).
Proof.
  unfold string_literal. destruct (take c_dquote (save_pos s)) as [b s1] eqn:E. destruct (take_fwd _ _ _ _ E) as (H1 & H2 & H3). destruct b.
  - destruct (H2 eq_refl) as [H4 H5]. destruct (string_span 32 (rest_of s1)) as [t|].
    + apply good_pop; [|cbn in *; lia]. eapply fwd_trans; [exact H1|]. apply fwd_at. lia.
    + apply good_back; [|discriminate]. eapply fwd_trans; [exact H1|]. apply fwd_at.
      apply peek_lt in H5. destruct H1 as (Hc & _). rewrite Hc. unfold take in E. destruct (nth_error _ _) as [d|]; [destruct (c_dquote =? d)%N|]; try discriminate. injection E as <-. cbn in *. lia.
  - now apply good_back.
Qed.
Lemma path_good s : fwd s (snd (json_path_expr P parse_path F s)) /\ fst (json_path_expr P parse_path F s) <> inr TFuel /\
  (forall a, fst (json_path_expr P parse_path F s) = inl a -> sc_pos s < sc_pos (snd (json_path_expr P parse_path F s)) \/ (snd (json_path_expr P parse_path F s) = s /\ path_span false false (rest_of s) = [])).
Proof.
  unfold json_path_expr. rewrite rest_save. set (t := path_span _ _ _).
  assert (W : fwd (save_pos s) (at_pos (save_pos s) (sc_pos (save_pos s) + length t))) by (apply fwd_at; lia).
  destruct (parse_path t); cbn [fst snd].
  - split; [now apply fwd_pop|]. split; [discriminate|]. intros a _. destruct t as [|c t]; [right|left; cbn; lia]. split; [|reflexivity]. cbn. destruct s. unfold pop_pos, at_pos. cbn. f_equal. lia.
  - split; [now apply fwd_back|]. split; discriminate.
Qed.
Lemma good_seq {A B} s (x : (A + terr) * scanner) (f : A -> B) (g : scanner -> (B + terr) * scanner) :
  good s x -> (forall s1, fwd s s1 -> good s1 (g s1)) -> good s (match x with (inl a, s1) => (inl (f a), s1) | (inr _, s1) => g s1 end).
Proof.
  destruct x as [[a|e] s1]; intros (H1 & H2 & H3) Hg; cbn [fst snd] in *.
  - split; [exact H1|]. split; [intros b _; exact (H2 a eq_refl)|discriminate].
  - destruct (Hg s1 H1) as (G1 & G2 & G3). split; [eapply fwd_trans; eassumption|]. split; [|exact G3]. intros b Hb. specialize (G2 b Hb). destruct H1 as (_ & H1 & _). lia.
Qed.
Lemma others_good s : good s (others s).
Proof.
  unfold TemplateParserProofs.others.
  apply (good_seq s (bool_literal P F s) (fun e => e)); [apply literal_good|]. intros s3 _.
  apply (good_seq s3 (null_literal P F s3) (fun e => e)); [apply literal_good|]. intros s4 _.
  apply (good_seq s4 (float_literal P F parse_float s4) (fun e => e)); [apply float_good|]. intros s5 _.
  apply (good_seq s5 (int_literal P F s5) (fun e => e)); [apply int_good|]. intros s6 _. apply string_good.
Qed.

Lemma parse_ends n :
  (forall s r s', func_call n s = (r, s') -> fwd s s' /\ (forall c, r = inl c -> sc_pos s < sc_pos s') /\ (forall e, r = inr e -> s' = s \/ sc_pos s < sc_pos s') /\ (4 * rem s + 2 <= n -> r <> inr TFuel)) /\
  (forall s r s', func_args n s = (r, s') -> fwd s s' /\ (4 * rem s + 5 <= n -> r <> inr TFuel)) /\
  (forall s r s', args_loop n s = (r, s') -> fwd s s' /\ (4 * rem s + 4 <= n -> r <> inr TFuel)) /\
  (forall s r s', func_arg n s = (r, s') -> fwd s s' /\ (4 * rem s + 3 <= n -> r <> inr TFuel) /\
     (forall a, r = inl a -> sc_pos s < sc_pos s' \/ (s' = s /\ path_span false false (rest_of s) = []))).
Proof.
  induction n as [|n (IHc & IHa & IHl & IHg)].
  - repeat split; intros; match goal with H : _ = (_, _) |- _ => injection H as <- <- end; try lia; try discriminate; try (exists []; auto); auto.
  - split; [|split; [|split]].
    + intros s r s'. rewrite func_call_S. destruct (func_name k (save_pos s)) as [[name|e] s1] eqn:E1; destruct (name_fwd _ _ _ E1) as (N1 & N2 & N3).
      * destruct (N2 name eq_refl) as [N4 N5]. change (rem (save_pos s)) with (rem s) in N4. change (sc_pos (save_pos s)) with (sc_pos s) in N5.
        destruct (func_args n s1) as [[args|e] s2] eqn:E2; destruct (IHa _ _ _ E2) as [A1 A2]; intros H; injection H as <- <-.
        -- split; [apply fwd_pop; eapply fwd_trans; eassumption|]. split; [intros _ _; destruct A1 as (_ & A1 & _); cbn; lia|]. split; discriminate.
        -- split; [apply fwd_back; eapply fwd_trans; eassumption|]. split; [discriminate|]. split; [|intros Hn He; injection He as ->; apply A2; [lia|reflexivity]].
           intros e' _. assert (S1 : sc_stack s1 = sc_pos s :: sc_stack s).
           { clear - E1. unfold func_name in E1. destruct (peek _) as [c|]; [destruct (name_start k c)|]; try discriminate. unfold take_while in E1. injection E1 as _ <-. unfold pop. destruct (nth_error _ _); reflexivity. }
           destruct A1 as (C1 & C2 & lk & C3 & C4). destruct N1 as (D1 & _). rewrite S1 in C3. unfold backtrack. rewrite C3. destruct lk as [|p lk]; cbn [app].
           ++ left. rewrite C1, D1. destruct s; reflexivity.
           ++ right. inversion C4; subst. cbn. lia.
      * intros H; injection H as <- <-. split; [now apply fwd_back|]. split; [discriminate|]. split; [|intros _ He; apply N3; congruence]. intros e' _. left.
        assert (S1 : sc_stack s1 = sc_pos s :: sc_stack s). { clear - E1. unfold func_name in E1. destruct (peek _) as [c|]; [destruct (name_start k c)|]; [discriminate| |]; injection E1 as _ <-; reflexivity. }
        unfold backtrack. rewrite S1. destruct N1 as (D1 & _). rewrite D1. destruct s; reflexivity.
    + intros s r s'. rewrite func_args_S. pose proof (skip_fwd s) as K. destruct (take c_lparen (skip_blanks s)) as [[] s1] eqn:E; destruct (take_fwd _ _ _ _ E) as (T1 & T2 & T3).
      * intros H. destruct (IHl _ _ _ H) as [L1 L2]. destruct (T2 eq_refl) as [T4 T5]. split; [eapply fwd_trans; [exact K|]; eapply fwd_trans; eassumption|].
        intros Hn. apply L2. pose proof (fwd_lt _ _ _ T1 T5 T4). pose proof (fwd_rem _ _ K). lia.
      * intros H; injection H as <- <-. split; [eapply fwd_trans; eassumption|]. discriminate.
    + intros s r s'. rewrite args_loop_S. destruct (peek s) as [c|] eqn:Ep; [|intros H; injection H as <- <-; split; [apply fwd_refl|discriminate]].
      assert (Pp : fwd s (snd (pop s)) /\ sc_pos s < sc_pos (snd (pop s))). { unfold pop. unfold peek in Ep. rewrite Ep. cbn [snd]. split; [apply fwd_at; lia|cbn; lia]. }
      destruct Pp as [P1 P2]. pose proof (fwd_lt _ _ _ P1 Ep P2) as P3. destruct (whitespace k c) eqn:Ew.
      { intros H. destruct (IHl _ _ _ H) as [L1 L2]. split; [eapply fwd_trans; eassumption|]. intros Hn. apply L2. lia. }
      destruct (N.eqb_spec c c_rparen) as [->|Hrp]; [intros H; injection H as <- <-; split; [exact P1|discriminate]|].
      destruct (func_arg n s) as [[a|e] s1] eqn:E1; destruct (IHg _ _ _ E1) as (G1 & G2 & G3).
      2:{ intros H; injection H as <- <-. split; [exact G1|]. intros Hn He. injection He as ->. apply G2; [lia|reflexivity]. }
      pose proof (skip_fwd s1) as K. destruct (take c_comma (skip_blanks s1)) as [b s2] eqn:E2. destruct (take_fwd _ _ _ _ E2) as (T1 & T2 & T3).
      assert (W : fwd s s2) by (eapply fwd_trans; [exact G1|]; eapply fwd_trans; eassumption).
      assert (L : sc_pos s < sc_pos s2).
      { destruct (G3 a eq_refl) as [G4|[-> G4]]; [destruct K as (_ & K & _); destruct T1 as (_ & T1 & _); lia|].
        assert (c = c_comma) as ->. { rewrite peek_rest in Ep. destruct (rest_of s) as [|d rr]; [discriminate|]. injection Ep as ->. cbn [path_span] in G4.
          destruct (c =? c_apos)%N; [discriminate|]. destruct (c =? c_lbrk)%N; [discriminate|]. destruct (c =? c_rbrk)%N; [discriminate|]. destruct (N.eqb_spec c c_comma); [assumption|]. rewrite (proj2 (N.eqb_neq _ _) Hrp) in G4. discriminate. }
        rewrite (skip_same s c_comma Ep Ew) in *. destruct b; [now apply T2|]. destruct (T3 eq_refl) as [_ T4]. congruence. }
      assert (M : forall x, args_loop n s2 = x -> fwd s (snd (map_fst (cons a) x)) /\ (4 * rem s + 4 <= S n -> fst (map_fst (cons a) x) <> inr TFuel)).
      { intros [[l|e] s3] Hx; destruct (IHl _ _ _ Hx) as [L1 L2]; cbn [map_fst fst snd]; (split; [eapply fwd_trans; eassumption|]).
        - discriminate.
        - intros Hn He. injection He as ->. apply L2; [|reflexivity]. pose proof (fwd_lt _ _ _ W Ep L). lia. }
      specialize (M _ eq_refl). destruct b.
      { intros H. rewrite H in M. exact M. }
      destruct (peek s2) as [d|]; [destruct (negb (d =? c_rparen)%N)|]; intros H.
      * injection H as <- <-. split; [exact W|discriminate].
      * rewrite H in M. exact M.
      * rewrite H in M. exact M.
    + intros s r s'. rewrite func_arg_S. destruct (func_call n s) as [[c|e] s1] eqn:E1; destruct (IHc _ _ _ E1) as (C1 & C2 & C3 & C4).
      { intros H; injection H as <- <-. split; [exact C1|]. split; [discriminate|]. intros a _. left. exact (C2 c eq_refl). }
      assert (Ef : e = TFuel \/ e <> TFuel) by (destruct e; (now left) || (right; discriminate)). destruct Ef as [->|Ef].
      { intros H; injection H as <- <-. split; [exact C1|]. split; [|discriminate]. intros Hn _. apply C4; [lia|reflexivity]. }
      pose proof (path_good s1) as (Q1 & Q2 & Q3). destruct (json_path_expr P parse_path F s1) as [x s2] eqn:E2. cbn [fst snd] in *.
      assert (O : good s2 (others s2)) by apply others_good. destruct O as (O1 & O2 & O3).
      assert (G : forall y, y = (inr TPath, s2) \/ y = others s2 -> fwd s (snd y) /\ (4 * rem s + 3 <= S n -> fst y <> inr TFuel) /\ (forall a, fst y = inl a -> sc_pos s < sc_pos (snd y) \/ (snd y = s /\ path_span false false (rest_of s) = []))).
      { assert (W : fwd s s2) by (eapply fwd_trans; eassumption). intros y [-> | ->]; cbn [fst snd].
        - split; [exact W|]. split; discriminate.
        - split; [eapply fwd_trans; eassumption|]. split; [intros _; exact O3|]. intros a Ha. left. specialize (O2 a Ha). destruct W as (_ & W & _). lia. }
      assert (R : match x with inl e0 => (inl e0, s2) | inr TPath => if match peek s2 with Some c => (c =? c_dollar)%N | None => false end then (inr TPath, s2) else others s2 | inr _ => others s2 end = (r, s') ->
                  fwd s s' /\ (4 * rem s + 3 <= S n -> r <> inr TFuel) /\ (forall a, r = inl a -> sc_pos s < sc_pos s' \/ (s' = s /\ path_span false false (rest_of s) = []))).
      { destruct x as [p|e2].
        - intros H; injection H as <- <-. split; [eapply fwd_trans; eassumption|]. split; [discriminate|]. intros a _.
          destruct (C3 e eq_refl) as [->|C5].
          + exact (Q3 p eq_refl).
          + left. destruct Q1 as (_ & Q1 & _). lia.
        - assert (K : match e2 with TPath => if match peek s2 with Some c => (c =? c_dollar)%N | None => false end then (inr TPath, s2) else others s2 | _ => others s2 end = (inr TPath, s2) \/
                      match e2 with TPath => if match peek s2 with Some c => (c =? c_dollar)%N | None => false end then (inr TPath, s2) else others s2 | _ => others s2 end = others s2).
          { destruct e2; auto. destruct (match peek s2 with Some c => (c =? c_dollar)%N | None => false end); auto. }
          intros H. specialize (G _ K). rewrite H in G. exact G. }
      destruct e; try (now elim Ef); exact R.
Qed.
Lemma parse_no_fuel t : parse_func k P parse_path F parse_float t <> inr TFuel.
Proof.
  unfold parse_func. destruct (func_call (parse_fuel t) (new_scanner t)) as [r s'] eqn:E. destruct (proj1 (parse_ends _) _ _ _ E) as (_ & _ & _ & H). cbn [fst]. apply H.
  unfold parse_fuel, rem. cbn [new_scanner sc_chars sc_pos]. lia.
Qed.

(** Strings never end with a backslash. *)
Lemma span_last prev l t : string_span prev l = Some t -> (t = [] /\ prev <> c_bslash) \/ (exists u d, t = u ++ [d] /\ d <> c_bslash).
Proof.
  revert prev t. induction l as [|c l IH]; intros prev t; cbn [string_span]; [discriminate|].
  destruct (N.eqb_spec c c_dquote) as [->|Hc]; cbn [andb].
  - destruct (N.eqb_spec prev c_bslash) as [->|Hp]; cbn [negb].
    + destruct (string_span c_dquote l) as [t'|] eqn:E; [|discriminate]. intros H; injection H as <-. right. destruct (IH _ _ E) as [[-> _]|(u & d & -> & Hd)].
      * exists [], c_dquote. split; [reflexivity|discriminate].
      * exists (c_dquote :: u), d. auto.
    + intros H; injection H as <-. now left.
  - destruct (string_span c l) as [t'|] eqn:E; [|discriminate]. intros H; injection H as <-. right. destruct (IH _ _ E) as [[-> Hb]|(u & d & -> & Hd)].
    + exists [], c. auto.
    + exists (c :: u), d. auto.
Qed.
Lemma unescape_last u d : d <> c_bslash -> exists v, unescape (u ++ [d]) = v ++ [d].
Proof.
  intros Hd. remember (length u) as n eqn:En. revert u En. induction n as [n IH] using lt_wf_ind. intros u En. destruct u as [|c u]; [exists []; reflexivity|].
  destruct u as [|e u].
  - cbn [app unescape]. destruct ((c =? c_bslash)%N && (d =? c_dquote)%N) eqn:E.
    + apply andb_prop in E. destruct E as [_ E]. apply N.eqb_eq in E. subst d. exists []. reflexivity.
    + exists [c]. reflexivity.
  - change (unescape ((c :: e :: u) ++ [d])) with (if (c =? c_bslash)%N && (e =? c_dquote)%N then c_dquote :: unescape (u ++ [d]) else c :: unescape ((e :: u) ++ [d])). destruct ((c =? c_bslash)%N && (e =? c_dquote)%N).
    + destruct (IH (length u) ltac:(cbn in En; lia) u eq_refl) as [v ->]. exists (c_dquote :: v). reflexivity.
    + destruct (IH (length (e :: u)) ltac:(cbn in En; cbn; lia) (e :: u) eq_refl) as [v Hv]. rewrite Hv. exists (c :: v). reflexivity.
Qed.
Lemma snoc_inj {A} (a b : list A) x y : a ++ [x] = b ++ [y] -> x = y.
Proof. intros H. apply app_inj_tail in H. tauto. Qed.
Lemma string_no_backslash s v s' : string_literal P F s = (inl (EStr v), s') -> ~ ends_with_backslash v.
Proof.
  unfold string_literal. destruct (take c_dquote (save_pos s)) as [[] s1]; [|discriminate]. destruct (string_span 32 (rest_of s1)) as [t0|] eqn:E; [|discriminate].
  intros H; injection H as <- <-. intros (u & Hu). destruct (span_last _ _ _ E) as [[-> _]|(w & d & -> & Hd)]; [destruct u; discriminate|].
  destruct (unescape_last w d Hd) as [v' Hv]. rewrite Hv in Hu. apply snoc_inj in Hu. now apply Hd.
Qed.
Definition clean (e : expr P F) : Prop := forall v, string_in_expr P F v e -> ~ ends_with_backslash v.
Lemma clean_atom e : (forall t, e <> EStr t) -> (forall c, e <> ECall c) -> clean e.
Proof. intros H1 H2 v Hv. destruct Hv as [|n args a Ha Hv]; [now elim (H1 v)|now elim (H2 (Call n args))]. Qed.
Lemma others_clean s e s' : others s = (inl e, s') -> clean e.
Proof.
  unfold TemplateParserProofs.others. destruct (bool_literal P F s) as [[x|] s3] eqn:E3.
  { intros H; injection H as <- <-. unfold bool_literal, literal in E3. destruct (scan (bool_cb P F) (save_pos s)) as [[[y|]|[]] z] eqn:Es; try discriminate. injection E3 as -> _.
    pose proof (scan_match (bool_cb P F) (save_pos s) x) as M. rewrite Es in M. destruct (M eq_refl) as (w & _ & S). unfold says, bool_cb in S.
    repeat (match type of S with context [text_eqb w ?z] => destruct (text_eqb w z) end; [destruct S as [S|S]; try discriminate; injection S as <-; apply clean_atom; discriminate|]). destruct S; discriminate. }
  destruct (null_literal P F s3) as [[x|] s4] eqn:E4.
  { intros H; injection H as <- <-. unfold null_literal, literal in E4. destruct (scan (null_cb P F) (save_pos s3)) as [[[y|]|[]] z] eqn:Es; try discriminate. injection E4 as -> _.
    pose proof (scan_match (null_cb P F) (save_pos s3) x) as M. rewrite Es in M. destruct (M eq_refl) as (w & _ & S). unfold says, null_cb in S.
    repeat (match type of S with context [text_eqb w ?z] => destruct (text_eqb w z) end; [destruct S as [S|S]; try discriminate; injection S as <-; apply clean_atom; discriminate|]). destruct S; discriminate. }
  destruct (float_literal P F parse_float s4) as [[x|] s5] eqn:E5.
  { intros H; injection H as <- <-. unfold float_literal in E5. destruct (float_span _ _ _) as [w p0]; destruct w; [discriminate|]. destruct (negb p0); [discriminate|]. destruct (parse_float _); [|discriminate]. injection E5 as <- _. apply clean_atom; discriminate. }
  destruct (int_literal P F s5) as [[x|] s6] eqn:E6.
  { intros H; injection H as <- <-. unfold int_literal in E6. destruct (int_span _ _); [discriminate|]. destruct (parse_i64 _); [|discriminate]. injection E6 as <- _. apply clean_atom; discriminate. }
  intros H. pose proof H as H0. unfold string_literal in H0. destruct (take c_dquote (save_pos s6)) as [[] s7]; [|discriminate]. destruct (string_span 32 (rest_of s7)); [|discriminate].
  injection H0 as <- _. intros v Hv. inversion Hv; subst. eapply string_no_backslash. exact H.
Qed.
Lemma parse_clean n :
  (forall s c s', func_call n s = (inl c, s') -> clean (ECall c)) /\
  (forall s l s', func_args n s = (inl l, s') -> Forall clean l) /\
  (forall s l s', args_loop n s = (inl l, s') -> Forall clean l) /\
  (forall s e s', func_arg n s = (inl e, s') -> clean e).
Proof.
  induction n as [|n (IHc & IHa & IHl & IHg)]; [repeat split; intros; discriminate|]. split; [|split; [|split]].
  - intros s c s'. rewrite func_call_S. destruct (func_name k (save_pos s)) as [[name|] s1]; [|discriminate]. destruct (func_args n s1) as [[args|] s2] eqn:E; [|discriminate].
    intros H; injection H as <- <-. apply IHa in E. intros v Hv. inversion Hv as [|n' l a Ha Hs]; subst. rewrite Forall_forall in E. exact (E a Ha v Hs).
  - intros s l s'. rewrite func_args_S. destruct (take c_lparen (skip_blanks s)) as [[] s1]; [|discriminate]. apply IHl.
  - intros s l s'. rewrite args_loop_S. destruct (peek s) as [c|]; [|intros H; injection H as <- <-; constructor].
    destruct (whitespace k c); [apply IHl|]. destruct (c =? c_rparen)%N; [intros H; injection H as <- <-; constructor|].
    destruct (func_arg n s) as [[a|] s1] eqn:E1; [|discriminate]. apply IHg in E1.
    assert (M : forall s2, map_fst (cons a) (args_loop n s2) = (inl l, s') -> Forall clean l).
    { intros s2. destruct (args_loop n s2) as [[l'|] s3] eqn:E2; cbn [map_fst]; [|discriminate]. intros H; injection H as <- <-. constructor; [exact E1|]. eapply IHl. exact E2. }
    destruct (take c_comma (skip_blanks s1)) as [[] s2]; [apply M|]. destruct (peek s2) as [d|]; [destruct (negb (d =? c_rparen)%N); [discriminate|]|]; apply M.
  - intros s e s'. rewrite func_arg_S. destruct (func_call n s) as [[c|e1] s1] eqn:E1.
    { intros H; injection H as <- <-. eapply IHc. exact E1. }
    destruct (json_path_expr P parse_path F s1) as [[p|e2] s2] eqn:E2.
    { intros H. assert (Hp : clean p). { unfold json_path_expr in E2. destruct (parse_path _); [|discriminate]. injection E2 as <- _. apply clean_atom; discriminate. } destruct e1; try discriminate; injection H as <- <-; exact Hp. }
    intros H. assert (K : others s2 = (inl e, s')). { destruct e1; try discriminate; destruct e2; try exact H; destruct (match peek s2 with Some c => (c =? c_dollar)%N | None => false end); try discriminate; exact H. }
    eapply others_clean. exact K.
Qed.
End Params.
