(** Safety of the interpolation loop on every input: no panic, never an empty list, and
    every reported reference is in the text. *)
From Verif Require Import Base Chars ScannerModel SubstModel SubstSpec SubstScan SubstProofs.
Local Open Scope list_scope.

Section WithClasses.
Variable k : classes.
Hypothesis Hk : sane k.
Notation step := (step k).
Notation steps := (steps k).

Definition not_dollar (c : N) : bool := negb (c =? c_dollar)%N.
Definition cut (t : text) : text := fst (span not_dollar t).
Definition clean (t : text) : bool := forallb not_dollar t.

Lemma cut_snoc t c : cut (t ++ [c]) = if clean t then (if not_dollar c then t ++ [c] else t) else cut t.
Proof.
  unfold cut, clean. induction t as [|d t IH]; cbn.
  - destruct (not_dollar c); reflexivity.
  - destruct (not_dollar d) eqn:E; cbn; [|reflexivity]. destruct (span not_dollar (t ++ [c])) eqn:S1. destruct (span not_dollar t) eqn:S2.
    cbn in *. rewrite IH. destruct (forallb not_dollar t); [destruct (not_dollar c)|]; reflexivity.
Qed.
Lemma cut_clean t : clean t = true -> cut t = t.
Proof.
  unfold cut, clean. intros H. rewrite <- (app_nil_r t) at 1. rewrite span_exact; auto.
Qed.
Lemma clean_snoc t c : clean (t ++ [c]) = clean t && not_dollar c.
Proof. unfold clean. rewrite forallb_app. cbn. now rewrite andb_true_r. Qed.
Lemma prefix_of_cut x y r : clean x = true -> cut (x ++ y) = cut r -> exists z, r = x ++ z.
Proof.
  intros Hx E. assert (C : cut (x ++ y) = x ++ cut y).
  { clear E. unfold cut. induction x as [|c x IH]; [reflexivity|]. cbn in *. apply andb_prop in Hx. destruct Hx as [-> Hx].
    specialize (IH Hx). destruct (span not_dollar (x ++ y)). cbn in *. now rewrite IH. }
  exists (cut y ++ snd (span not_dollar r)). rewrite app_assoc, <- C, E. symmetry. apply span_app.
Qed.

Lemma grow_eq p r c : cut p = cut r -> clean p = clean r ->
  cut (p ++ [c]) = cut (r ++ [c]) /\ clean (p ++ [c]) = clean (r ++ [c]).
Proof.
  intros Cut Cl. rewrite !cut_snoc, !clean_snoc, Cl. split; [|reflexivity]. destruct (clean r) eqn:D; [|exact Cut].
  rewrite (cut_clean r D), (cut_clean p Cl) in Cut. now rewrite Cut.
Qed.

(** A reference to [n] is written somewhere in [w] (up to its closing brace). *)
Definition occurs (w n : text) : Prop :=
  exists a z, (dot_name k n /\ w = a ++ chars "${variables." ++ n ++ z) \/
              (quoted_name k n /\ w = a ++ chars "${variables[""" ++ n ++ chars """]" ++ z).
Lemma occurs_grow w n c : occurs w n -> occurs (w ++ c) n.
Proof.
  intros (a & z & H). exists a, (z ++ c).
  destruct H as [[H ->]|[H ->]]; [left|right]; (split; [exact H|]); rewrite <- !app_assoc; reflexivity.
Qed.

Definition lit_ok (p : part) : Prop := match p with Lit t => t <> [] | Ref _ => True end.
Record inv (w : text) (s : st) : Prop := {
  i_dollar : prev s = c_dollar -> exists p, pnon s = p ++ [c_dollar];
  i_idle : possible s = false -> psub s = [];
  i_busy : possible s = true -> exists a r, w = a ++ open_sub ++ r /\ cut (psub s) = cut r /\ clean (psub s) = clean r /\
             (prev s = c_dollar -> clean r = false);
  i_refs : forall n, In (Ref n) (rev_parsed s) -> occurs w n;
  i_lits : Forall lit_ok (rev_parsed s);
  i_some : w <> [] -> rev_parsed s <> [] \/ pnon s <> [];
  i_prev : prev s = c_dollar -> exists w', w = w' ++ [c_dollar] }.

Lemma name_clean_lit n : forallb (literal_char k) n = true -> clean n = true.
Proof.
  intros H. unfold clean. apply forallb_forall. intros d Hd. rewrite forallb_forall in H. specialize (H d Hd). unfold not_dollar.
  apply negb_true_iff, N.eqb_neq. intros ->. rewrite ascii_not_literal in H; [discriminate|exact Hk|reflexivity|reflexivity].
Qed.
Lemma name_clean_dot n : dot_name k n -> clean n = true.
Proof.
  intros H. apply dot_name_iff in H. destruct H as (c & t & -> & Hc & Ht). unfold clean. cbn. apply andb_true_intro. split.
  - unfold not_dollar. apply negb_true_iff, N.eqb_neq. intros ->. unfold ident_start in Hc. rewrite (alphabetic_ascii_not k Hk) in Hc; [discriminate|reflexivity|reflexivity].
  - apply name_clean_lit. apply forallb_forall. intros d Hd. rewrite forallb_forall in Ht. unfold literal_char. now rewrite (Ht d Hd).
Qed.

Lemma found_occurs a r ps n w : w = a ++ open_sub ++ r -> cut ps = cut r -> starts_with kw_variables ps = true ->
  parse_substitution k ps = inl n -> occurs w n.
Proof.
  intros -> C S P. destruct (parse_sound k Hk ps n S P) as [(Hn & y & E)|(Hn & y & E)].
  - rewrite E in C. assert (X : clean (kw_variables ++ [c_dot] ++ n) = true).
    { unfold clean. rewrite !forallb_app. fold (clean n). rewrite (name_clean_dot n Hn). reflexivity. }
    replace (kw_variables ++ [c_dot] ++ n ++ y) with ((kw_variables ++ [c_dot] ++ n) ++ y) in C by now rewrite <- !app_assoc.
    destruct (prefix_of_cut _ _ _ X C) as (z & ->). exists a, z. left. split; [exact Hn|]. rewrite <- !app_assoc. reflexivity.
  - rewrite E in C. assert (X : clean (kw_variables ++ [c_lbrack; c_quote] ++ n ++ [c_quote; c_rbrack]) = true).
    { unfold clean. rewrite !forallb_app. fold (clean n). rewrite (name_clean_lit n) by now apply quoted_name_iff. reflexivity. }
    replace (kw_variables ++ [c_lbrack; c_quote] ++ n ++ [c_quote; c_rbrack] ++ y)
      with ((kw_variables ++ [c_lbrack; c_quote] ++ n ++ [c_quote; c_rbrack]) ++ y) in C by now rewrite <- !app_assoc.
    destruct (prefix_of_cut _ _ _ X C) as (z & ->). exists a, z. right. split; [exact Hn|]. rewrite <- !app_assoc. reflexivity.
Qed.

Lemma snoc_not_nil {A} (l : list A) x : l ++ [x] <> [].
Proof. destruct l; discriminate. Qed.

(** The last two phases, from any state that satisfies the invariant except that the
    character is not accounted for yet. *)
Lemma close_inv w (o : bool) s ch :
  (possible s = false -> psub s = []) ->
  (o = false -> possible s = true -> exists a r, w = a ++ open_sub ++ r /\ cut (psub s) = cut r /\ clean (psub s) = clean r) ->
  (forall n, In (Ref n) (rev_parsed s) -> occurs w n) -> Forall lit_ok (rev_parsed s) ->
  (o = false \/ (o = true /\ ch = c_open /\ possible s = true /\ exists a r, w ++ [ch] = a ++ open_sub ++ r /\ cut (psub s) = cut r /\ clean (psub s) = clean r)) ->
  match (let! (r, s3) := check_close k s ch in Ok (grow_sub o (after_close r s3 ch) ch)) with
  | Ok s' => inv (w ++ [ch]) s'
  | Err _ => True
  | Panic => False
  end.
Proof.
  intros Hidle Hbusy Hrefs Hlits Ho. unfold check_close.
  assert (Hrefs' : forall n, In (Ref n) (rev_parsed s) -> occurs (w ++ [ch]) n) by (intros n Hn; apply occurs_grow; auto).
  destruct ((ch =? c_close)%N && possible s && negb (in_lit s)) eqn:Ec.
  - apply andb_prop in Ec. destruct Ec as [Ec _]. apply andb_prop in Ec. destruct Ec as [Ech Ep]. apply N.eqb_eq in Ech. subst ch.
    assert (o = false) as -> by (destruct Ho as [->|(_ & Ho & _)]; [reflexivity|discriminate Ho]).
    destruct (Hbusy eq_refl Ep) as (a & r & Ew & Cut & Cl).
    destruct (starts_with kw_variables (psub s)) eqn:Es.
    + destruct (parse_substitution k (psub s)) as [n|e] eqn:En; [|exact I]. cbn. constructor; cbn.
      * discriminate.
      * reflexivity.
      * discriminate.
      * intros m [Hm|Hm]; [inversion Hm; subst|auto]. apply occurs_grow. eapply found_occurs; eauto.
      * constructor; [exact I|exact Hlits].
      * intros _. left. discriminate.
      * discriminate.
    + assert (B : exists a' r', w ++ [c_close] = a' ++ open_sub ++ r' /\ cut (psub s ++ [c_close]) = cut r' /\ clean (psub s ++ [c_close]) = clean r' /\ (c_close = c_dollar -> clean r' = false)).
      { exists a, (r ++ [c_close]). split; [rewrite Ew; now rewrite <- !app_assoc|]. destruct (grow_eq _ _ c_close Cut Cl) as [G1 G2].
        split; [exact G1|]. split; [exact G2|discriminate]. }
      cbn [obind after_close]. destruct (rev_parsed s) as [|[t|m] rp] eqn:Er; unfold grow_sub; cbn [possible]; rewrite Ep; cbn [andb negb]; constructor; cbn [prev possible psub pnon rev_parsed]; try discriminate; try (intros _; exact B); try exact Hrefs'; try (intros ->; eexists; reflexivity).
      * constructor.
      * intros _. right. apply snoc_not_nil.
      * intros n [Hn|Hn]; [discriminate|]. apply Hrefs'. now right.
      * inversion Hlits; subst. constructor; [apply snoc_not_nil|assumption].
      * intros _. left. discriminate.
      * exact Hlits.
      * intros _. right. apply snoc_not_nil.
  - cbn [obind after_close]. unfold grow_sub. cbn [possible]. destruct (possible s) eqn:Ep.
    + destruct Ho as [->|(-> & -> & _ & B0)]; cbn [andb negb].
      * destruct (Hbusy eq_refl eq_refl) as (a & r & Ew & Cut & Cl). constructor; cbn [prev possible psub pnon rev_parsed]; try exact Hrefs'; try exact Hlits; try (intros ->; eexists; reflexivity).
        -- discriminate.
        -- intros _. exists a, (r ++ [ch]). split; [rewrite Ew; now rewrite <- !app_assoc|]. destruct (grow_eq _ _ ch Cut Cl) as [G1 G2].
           split; [exact G1|]. split; [exact G2|]. intros ->. rewrite clean_snoc. unfold not_dollar. rewrite N.eqb_refl. apply andb_false_r.
        -- intros _. right. apply snoc_not_nil.
      * destruct B0 as (a & r & Ew & Cut & Cl). constructor; cbn [prev possible psub pnon rev_parsed]; try exact Hrefs'; try exact Hlits; try discriminate; try (intros ->; eexists; reflexivity).
        -- intros _. exists a, r. split; [exact Ew|]. split; [exact Cut|]. split; [exact Cl|discriminate].
        -- intros _. right. apply snoc_not_nil.
    + assert (o = false) as -> by (destruct Ho as [->|(_ & _ & Hf & _)]; [reflexivity|discriminate Hf]).
      cbn [andb]. constructor; cbn [prev possible psub pnon rev_parsed]; try exact Hrefs'; try exact Hlits; try discriminate; try (intros ->; eexists; reflexivity).
      * intros _. now apply Hidle.
      * intros _. right. apply snoc_not_nil.
Qed.

Lemma literal_fields s ch : let s' := check_literal s ch in
  possible s' = possible s /\ psub s' = psub s /\ pnon s' = pnon s /\ rev_parsed s' = rev_parsed s /\ prev s' = prev s.
Proof. unfold check_literal. destruct (_ && _ && _); cbn; auto. Qed.

Lemma step_inv w s ch : inv w s ->
  match step s ch with Ok s' => inv (w ++ [ch]) s' | Err _ => True | Panic => False end.
Proof.
  intros [I1 I2 I3 I4 I5 I6 I7]. unfold SubstModel.step, check_open.
  destruct ((prev s =? c_dollar)%N && (ch =? c_open)%N && negb (in_lit s)) eqn:Eo.
  - apply andb_prop in Eo. destruct Eo as [Eo _]. apply andb_prop in Eo. destruct Eo as [Ep Ech]. apply N.eqb_eq in Ep, Ech. subst ch.
    destruct (I1 Ep) as (p & Enon). unfold drop_last_byte. rewrite Enon, rev_unit. change (Nat.eqb (utf8_len c_dollar) 1) with true. cbv iota.
    rewrite rev_involutive. cbn [obind].
    match goal with |- context[check_literal ?x c_open] => set (s1 := x) end.
    assert (L := literal_fields s1 c_open). cbn zeta in L. destruct L as (L1 & L2 & L3 & L4 & L5).
    assert (R : rev_parsed s1 = match p with [] => rev_parsed s | _ => Lit p :: rev_parsed s end) by reflexivity.
    apply close_inv.
    + rewrite L1. cbn. discriminate.
    + discriminate.
    + rewrite L4, R. intros n Hn. apply I4. destruct p; [exact Hn|]. destruct Hn as [Hn|Hn]; [discriminate|exact Hn].
    + rewrite L4, R. destruct p; [exact I5|]. constructor; [discriminate|exact I5].
    + right. split; [reflexivity|]. split; [reflexivity|]. rewrite L1, L2. split; [reflexivity|]. cbn [s1 psub]. destruct (possible s) eqn:Po.
      * destruct (I3 eq_refl) as (a & r & H1 & H2 & H3 & H4). exists a, (r ++ [c_open]). split; [rewrite H1; now rewrite <- !app_assoc|].
        rewrite cut_snoc, clean_snoc, H3, (H4 Ep). split; [exact H2|reflexivity].
      * rewrite (I2 eq_refl). destruct (I7 Ep) as (w' & ->). exists w', []. rewrite <- app_assoc. auto.
  - cbn [obind]. assert (L := literal_fields s ch). cbn zeta in L. destruct L as (L1 & L2 & L3 & L4 & L5).
    apply close_inv.
    + rewrite L1, L2. exact I2.
    + rewrite L1, L2. intros _ Po. destruct (I3 Po) as (a & r & H1 & H2 & H3 & _). eauto.
    + rewrite L4. exact I4.
    + rewrite L4. exact I5.
    + now left.
Qed.

Lemma steps_inv t : forall w s, inv w s ->
  match steps s t with Ok s' => inv (w ++ t) s' | Err _ => True | Panic => False end.
Proof.
  induction t as [|c t IH]; intros w s Hi; [cbn; now rewrite app_nil_r|]. cbn [SubstModel.steps].
  pose proof (step_inv w s c Hi) as S. destruct (step s c) as [s'|e|]; cbn [obind]; [|exact I|exact S].
  specialize (IH _ _ S). rewrite <- app_assoc in IH. exact IH.
Qed.
Lemma init_inv : inv [] init_st.
Proof. constructor; cbn; try discriminate; try reflexivity; try contradiction. constructor. Qed.

Lemma concat_nonempty ps : forall x, Forall lit_ok ps -> (x <> [] \/ ps <> []) -> concat_adjacent x ps <> [].
Proof.
  induction ps as [|[t|n] ps IH]; intros x Hl Hn; cbn.
  - destruct x; [destruct Hn as [H|H]; now elim H|discriminate].
  - inversion Hl; subst. apply IH; [assumption|]. left. intros E. apply app_eq_nil in E. destruct E as [_ E]. contradiction.
  - destruct x; discriminate.
Qed.
Lemma concat_refs ps n : forall x, In (Ref n) (concat_adjacent x ps) -> In (Ref n) ps.
Proof.
  induction ps as [|[t|m] ps IH]; intros x H; cbn in H.
  - destruct x; [destruct H|]. destruct H as [H|[]]. discriminate.
  - right. eauto.
  - destruct x; cbn in H; repeat (destruct H as [H|H]; [inversion H; subst; now left|]); right; eauto.
Qed.

Lemma parse_safe v : match parse_substitutions k v with
  | Ok ps => ps <> [] /\ forall n, In (Ref n) ps -> occurs v n
  | Err _ => True
  | Panic => False
  end.
Proof.
  unfold parse_substitutions. destruct (contains open_sub v) eqn:C; cbn [negb].
  - pose proof (steps_inv v [] init_st init_inv) as S. destruct (steps init_st v) as [s|e|]; cbn [obind]; [|exact I|exact S].
    cbn in S. destruct S as [_ _ _ I4 I5 I6 _]. split.
    + apply concat_nonempty.
      * apply Forall_app. split; [now apply Forall_rev|]. destruct (pnon s); constructor; [discriminate|constructor].
      * right. assert (Hv : v <> []) by (intros ->; discriminate C). destruct (I6 Hv) as [H|H].
        -- intros E. apply app_eq_nil in E. destruct E as [E _]. apply H. rewrite <- (rev_involutive (rev_parsed s)), E. reflexivity.
        -- intros E. apply app_eq_nil in E. destruct E as [_ E]. destruct (pnon s); [now elim H|discriminate].
    + intros n Hn. apply concat_refs in Hn. apply in_app_or in Hn. destruct Hn as [Hn|Hn].
      * apply in_rev in Hn. auto.
      * destruct (pnon s); [destruct Hn|destruct Hn as [Hn|[]]; discriminate].
  - split; [discriminate|]. intros n [H|[]]. discriminate.
Qed.
End WithClasses.
