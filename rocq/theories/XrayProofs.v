(** Lemmas on X-Ray trace ids *)
From Verif Require Import Base Chars XrayModel XraySpec.
Local Open Scope list_scope.
Local Open Scope N_scope.

Lemma digit_ok d : d < 16 -> digit_means (hex_digit d) d.
Proof. intros L. unfold hex_digit. destruct (N.ltb_spec d 10); constructor; lia. Qed.
Lemma hex_length w : forall n, length (hex w n) = w.
Proof. induction w as [|w IH]; intros n; [reflexivity|]. cbn [hex]. rewrite app_length, IH. cbn. lia. Qed.
Lemma hex_ok w : forall n, n < 16 ^ N.of_nat w -> hex_means (hex w n) n.
Proof.
  induction w as [|w IH]; intros n L.
  - cbn in L. assert (n = 0) as -> by lia. constructor.
  - cbn [hex]. rewrite Nat2N.inj_succ, N.pow_succ_r' in L. replace n with (16 * (n / 16) + n mod 16) at 3 by (symmetry; apply N.div_mod; lia).
    constructor; [apply IH; apply N.div_lt_upper_bound; lia|]. apply digit_ok. apply N.mod_lt. lia.
Qed.
Lemma digit_value c d : digit_means c d -> hex_value c = Some d.
Proof.
  intros [e L|e L]; unfold hex_value.
  - assert ((48 <=? 48 + e) && (48 + e <=? 57) = true) as -> by (apply andb_true_iff; rewrite !N.leb_le; lia). f_equal. lia.
  - assert ((48 <=? 87 + e) && (87 + e <=? 57) = false) as -> by (apply andb_false_iff; rewrite !N.leb_gt; lia).
    assert ((97 <=? 87 + e) && (87 + e <=? 102) = true) as -> by (apply andb_true_iff; rewrite !N.leb_le; lia). f_equal. lia.
Qed.
Lemma hex_number_app a : forall acc b, hex_number acc (a ++ b) = match hex_number acc a with Some v => hex_number v b | None => None end.
Proof. induction a as [|c a IH]; intros acc b; [reflexivity|]. cbn. destruct (hex_value c); [apply IH|reflexivity]. Qed.
Lemma hex_means_value t v : hex_means t v -> hex_number 0 t = Some v.
Proof. induction 1 as [|t v c d H IH D]; [reflexivity|]. rewrite hex_number_app, IH. cbn [hex_number]. rewrite (digit_value _ _ D). f_equal. lia. Qed.
Lemma hex_means_fun t v w : hex_means t v -> hex_means t w -> v = w.
Proof. intros A B. apply hex_means_value in A, B. congruence. Qed.
Lemma hex_means_char t v c : hex_means t v -> In c t -> 48 <= c <= 102.
Proof. induction 1 as [|t v c' d H IH D]; [intros []|]. rewrite in_app_iff. intros [I|[<-|[]]]; [auto|]. destruct D; lia. Qed.
Lemma from_hex_ok t v : hex_means t v -> t <> [] -> v < 2 ^ 128 -> from_hex t = Some v.
Proof.
  intros H N L. unfold from_hex. destruct t as [|c t]; [congruence|]. pose proof (hex_means_char _ _ c H (or_introl eq_refl)). destruct (N.eqb_spec c 43); [lia|]. cbv zeta. rewrite (hex_means_value _ _ H). destruct (N.ltb_spec v (2 ^ 128)); [reflexivity|lia].
Qed.
Lemma split_none p : (forall c, In c p -> c <> 45) -> split p = [p].
Proof.
  induction p as [|c p IH]; intros N; [reflexivity|]. cbn [split]. destruct (N.eqb_spec c 45) as [E|E]; [exfalso; apply (N c); [left; reflexivity|exact E]|]. rewrite IH; [reflexivity|]. intros d I. apply N. right. exact I.
Qed.
Lemma split_app p t : (forall c, In c p -> c <> 45) -> split (p ++ 45 :: t) = p :: split t.
Proof.
  induction p as [|c p IH]; intros N; [reflexivity|]. cbn [app split]. destruct (N.eqb_spec c 45) as [E|E]; [exfalso; apply (N c); [left; reflexivity|exact E]|]. rewrite IH; [reflexivity|]. intros d I. apply N. right. exact I.
Qed.
Lemma hex_first w n a : (a <= w)%nat -> firstn a (hex w n) = hex a (n / 16 ^ N.of_nat (w - a)).
Proof.
  revert n. induction w as [|w IH]; intros n L.
  - assert (a = 0%nat) as -> by lia. reflexivity.
  - destruct (Nat.eq_dec a (S w)) as [->|D].
    + rewrite Nat.sub_diag. cbn [N.of_nat]. rewrite N.pow_0_r, N.div_1_r. rewrite firstn_all2; [reflexivity|]. rewrite hex_length. lia.
    + cbn [hex]. rewrite firstn_app, hex_length. replace (a - w)%nat with 0%nat by lia. cbn [firstn]. rewrite app_nil_r, IH by lia. f_equal. replace (S w - a)%nat with (S (w - a)) by lia.
      rewrite Nat2N.inj_succ, N.pow_succ_r'. rewrite N.div_div; [reflexivity|lia|]. apply N.pow_nonzero. lia.
Qed.
Lemma hex_mod w : forall n, hex w (n mod 16 ^ N.of_nat w) = hex w n.
Proof.
  induction w as [|w IH]; intros n; [reflexivity|]. cbn [hex]. rewrite Nat2N.inj_succ, N.pow_succ_r'. assert (P : 16 ^ N.of_nat w <> 0) by (apply N.pow_nonzero; lia).
  rewrite N.mod_mul_r by lia. f_equal.
  - rewrite (N.add_comm (n mod 16)), N.mul_comm, N.div_add_l by lia. rewrite (N.div_small (n mod 16) 16) by (apply N.mod_lt; lia). rewrite N.add_0_r. apply IH.
  - do 2 f_equal. rewrite N.add_comm, N.mul_comm, N.add_comm, N.mod_add by lia. apply N.mod_mod. lia.
Qed.
Lemma hex_last w n a : (a <= w)%nat -> skipn a (hex w n) = hex (w - a) n.
Proof.
  revert n. induction w as [|w IH]; intros n L.
  - assert (a = 0%nat) as -> by lia. reflexivity.
  - destruct (Nat.eq_dec a (S w)) as [->|D].
    + rewrite Nat.sub_diag, skipn_all2; [reflexivity|]. rewrite hex_length. lia.
    + replace (S w - a)%nat with (S (w - a)) by lia. cbn [hex]. rewrite skipn_app, hex_length. replace (a - w)%nat with 0%nat by lia. cbn [skipn]. rewrite IH by lia. reflexivity.
Qed.
Lemma any_value c d : digit_any c d <-> hex_value c = Some d.
Proof.
  split.
  - intros [c' d' D|e L]; [now apply digit_value|]. unfold hex_value.
    assert ((48 <=? 55 + e) && (55 + e <=? 57) = false) as -> by (apply andb_false_iff; rewrite !N.leb_gt; lia).
    assert ((97 <=? 55 + e) && (55 + e <=? 102) = false) as -> by (apply andb_false_iff; rewrite !N.leb_gt; lia).
    assert ((65 <=? 55 + e) && (55 + e <=? 70) = true) as -> by (apply andb_true_iff; rewrite !N.leb_le; lia). f_equal. lia.
  - unfold hex_value. destruct (N.leb_spec 48 c), (N.leb_spec c 57); cbn [andb]; [intros [= <-]; constructor; replace c with (48 + (c - 48)) at 1 by lia; constructor; lia| | |].
    all: destruct (N.leb_spec 97 c), (N.leb_spec c 102); cbn [andb]; try (intros [= <-]; constructor; replace c with (87 + (c - 87)) at 1 by lia; constructor; lia).
    all: destruct (N.leb_spec 65 c), (N.leb_spec c 70); cbn [andb]; intros X; try discriminate X; injection X as <-; replace c with (55 + (c - 55)) at 1 by lia; constructor; lia.
Qed.
Lemma hex_from t : forall p v n, hex_any p v -> hex_number v t = Some n -> hex_any (p ++ t) n.
Proof.
  induction t as [|c t IH]; intros p v n P H; cbn in H; [injection H as <-; now rewrite app_nil_r|].
  destruct (hex_value c) as [d|] eqn:E; [|discriminate]. apply any_value in E. change (c :: t) with ([c] ++ t). rewrite app_assoc. eapply IH; [|exact H]. rewrite (N.mul_comm v 16). now constructor.
Qed.
Lemma hex_any_ok t v : hex_number 0 t = Some v <-> hex_any t v.
Proof.
  split; [intros H; exact (hex_from t [] 0 v ha_none H)|]. induction 1 as [|t v c d H IH D]; [reflexivity|]. rewrite hex_number_app, IH. cbn [hex_number]. rewrite (proj1 (any_value _ _) D). f_equal. lia.
Qed.
Lemma hex_any_char t v c : hex_any t v -> In c t -> c <> 43.
Proof. intros H I ->. apply hex_any_ok in H. revert H. generalize 0. induction t as [|c t IH]; [destruct I|]. intros acc. cbn. destruct I as [->|I]; [discriminate|]. destruct (hex_value c); [now apply IH|discriminate]. Qed.
Lemma from_hex_exact t n : from_hex t = Some n <-> n < 2 ^ 128 /\ exists ds, (t = ds \/ t = 43 :: ds) /\ ds <> [] /\ hex_any ds n.
Proof.
  assert (B : forall ds, (match ds with [] => None | _ => match hex_number 0 ds with Some n => if n <? 2 ^ 128 then Some n else None | None => None end end) = Some n <-> n < 2 ^ 128 /\ ds <> [] /\ hex_any ds n).
  { intros ds. rewrite <- hex_any_ok. destruct ds as [|c ds]; [split; [discriminate|now intros (_ & X & _)]|]. destruct (hex_number 0 (c :: ds)) as [m|]; [|split; [discriminate|now intros (_ & _ & X)]].
    destruct (N.ltb_spec m (2 ^ 128)); split; [intros [= <-]; repeat split; auto; discriminate|now intros (_ & _ & X)|discriminate|intros (L & _ & [= <-]); lia]. }
  unfold from_hex. cbv zeta. destruct t as [|c ds]; [split; [discriminate|intros (_ & ds & [<-|X] & N & _); [congruence|discriminate]]|].
  destruct (N.eqb_spec c 43) as [->|Hc].
  - rewrite B. split; [intros (L & N & H); split; [exact L|]; exists ds; auto|]. intros (L & ds' & E & N & H). destruct E as [E|E]; [subst ds'; exfalso; eapply hex_any_char; [exact H|now left|reflexivity]|]. injection E as E. subst ds'. auto.
  - etransitivity; [exact (B (c :: ds))|]. split; [intros (L & N & H); split; [exact L|]; exists (c :: ds); auto|]. intros (L & ds' & E & N & H). destruct E as [E|E]; [subst ds'; auto|]. injection E as E _. contradiction.
Qed.
Fixpoint joined (l : list text) : text := match l with [] => [] | [p] => p | p :: ps => p ++ 45 :: joined ps end.
Lemma split_parts t : joined (split t) = t /\ Forall dashless (split t) /\ split t <> [].
Proof.
  induction t as [|c t (IH & D & NE)]; [repeat split; [constructor; [intros []|constructor]|discriminate]|]. cbn [split]. destruct (N.eqb_spec c 45) as [->|Hc].
  - split; [|split; [constructor; [intros []|exact D]|discriminate]]. cbn [joined]. destruct (split t); [congruence|]. now rewrite IH.
  - destruct (split t) as [|p ps]; [congruence|]. pose proof (Forall_inv D). pose proof (Forall_inv_tail D). split; [|split; [constructor; [intros [E|E]; auto|assumption]|discriminate]].
    rewrite <- IH. destruct ps; reflexivity.
Qed.
Lemma split_join l : l <> [] -> Forall dashless l -> split (joined l) = l.
Proof.
  induction l as [|p [|q l] IH]; intros N D; [congruence| |]; inversion D; subst.
  - apply split_none. intros c I ->. contradiction.
  - change (joined (p :: q :: l)) with (p ++ 45 :: joined (q :: l)). rewrite split_app by (intros c I ->; contradiction). f_equal. apply IH; [discriminate|assumption].
Qed.
Lemma three_parts t v a b : split_terminator t = [v; a; b] <->
  dashless v /\ dashless a /\ dashless b /\ (t = v ++ [45] ++ a ++ [45] ++ b /\ b <> [] \/ t = v ++ [45] ++ a ++ [45] ++ b ++ [45]).
Proof.
  split.
  - destruct (split_parts t) as (J & D & _). unfold split_terminator. destruct (rev (split t)) as [|[|c p] ps] eqn:E.
    + intros X. rewrite X in E. discriminate.
    + intros X. assert (S : split t = [v; a; b; []]) by (rewrite <- (rev_involutive (split t)), E; cbn [rev]; rewrite X; reflexivity).
      rewrite S in J, D. repeat match goal with H : Forall _ (_ :: _) |- _ => inversion H; clear H; subst end. auto 10.
    + intros S. rewrite S in J, D, E. repeat match goal with H : Forall _ (_ :: _) |- _ => inversion H; clear H; subst end. repeat split; auto. left. split; [reflexivity|]. cbn in E. injection E as -> _. discriminate.
  - intros (Dv & Da & Db & [ (-> & Hb) | -> ]).
    + assert (S : split (v ++ [45] ++ a ++ [45] ++ b) = [v; a; b]) by (change (v ++ [45] ++ a ++ [45] ++ b) with (joined [v; a; b]); apply split_join; [discriminate|repeat constructor; assumption]).
      unfold split_terminator. rewrite S. cbn. destruct b; [congruence|reflexivity].
    + assert (S : split (v ++ [45] ++ a ++ [45] ++ b ++ [45]) = [v; a; b; []]) by (change (v ++ [45] ++ a ++ [45] ++ b ++ [45]) with (joined [v; a; b; []]); apply split_join; [discriminate|repeat constructor; auto; intros []]).
      unfold split_terminator. rewrite S. reflexivity.
Qed.
Lemma trace_exact t n : trace_of t = Some n <-> 0 < n < 2 ^ 128 /\ trace_text t n.
Proof.
  unfold trace_of. split.
  - destruct (split_terminator t) as [|v [|a [|b [|x l]]]] eqn:S; try discriminate. destruct (from_hex (a ++ b)) as [m|] eqn:H; [|discriminate]. destruct (N.eqb_spec m 0); [discriminate|]. intros [= <-].
    apply from_hex_exact in H. destruct H as (L & ds & E & Hd & H). apply three_parts in S. destruct S as (Dv & Da & Db & S). split; [lia|]. exists v, a, b, ds. auto 10.
  - intros (L & v & a & b & ds & Dv & Da & Db & S & E & Hd & H). rewrite (proj2 (three_parts t v a b)) by auto. rewrite (proj2 (from_hex_exact (a ++ b) n)) by (split; [lia|]; eauto). destruct (N.eqb_spec n 0); [lia|reflexivity].
Qed.
