From Coq Require Import DecimalString Decimal DecimalZ.
From Coq Require DecimalPos DecimalFacts.
From Verif Require Import Base ConfigModel ConfigSpec.
Open Scope string_scope.
Local Open Scope Z_scope.

Lemma byte_is_eq n c : byte_is n c = true -> c = ascii_of_N n.
Proof. unfold byte_is. intros H. apply N.eqb_eq in H. rewrite <- H. symmetry. apply ascii_N_embedding. Qed.

Lemma byte_in_range lo hi c : byte_in lo hi c = true ->
  exists n, c = ascii_of_N n /\ (lo <= n <= hi)%N.
Proof.
  unfold byte_in. intros H. apply andb_true_iff in H. destruct H as [H1 H2].
  apply N.leb_le in H1. apply N.leb_le in H2.
  exists (N_of_ascii c). split; [symmetry; apply ascii_N_embedding|lia].
Qed.

Ltac in_ws := unfold white_space, enc; simpl; tauto.

Lemma space1_ws c : space1 c = true -> In [c] white_space.
Proof.
  unfold space1. intros H. apply orb_true_iff in H. destruct H as [H|H].
  - apply byte_in_range in H. destruct H as (n & -> & Hn).
    assert (n = 9 \/ n = 10 \/ n = 11 \/ n = 12 \/ n = 13)%N as Hc by lia.
    destruct Hc as [->|[->|[->|[->| ->]]]]; in_ws.
  - apply byte_is_eq in H. subst. in_ws.
Qed.

Lemma space2_ws a b : space2 a b = true -> In [a; b] white_space.
Proof.
  unfold space2. rewrite andb_true_iff, orb_true_iff. intros [H1 [H2|H2]];
  apply byte_is_eq in H1; apply byte_is_eq in H2; subst; in_ws.
Qed.

Lemma space3_ws a b c : space3 a b c = true -> In [a; b; c] white_space.
Proof.
  unfold space3. rewrite !orb_true_iff, !andb_true_iff, !orb_true_iff.
  intros [[[H|H]|H]|H].
  - destruct H as [[H1 H2] H3]. apply byte_is_eq in H1, H2, H3. subst. in_ws.
  - destruct H as [[H1 H2] H3]. apply byte_is_eq in H1, H2. subst.
    destruct H3 as [[[H3|H3]|H3]|H3].
    + apply byte_in_range in H3. destruct H3 as (n & -> & Hn).
      assert (n = 128 \/ n = 129 \/ n = 130 \/ n = 131 \/ n = 132 \/ n = 133 \/ n = 134
              \/ n = 135 \/ n = 136 \/ n = 137 \/ n = 138)%N as Hc by lia.
      repeat (destruct Hc as [->|Hc]; [in_ws|]). subst. in_ws.
    + apply byte_is_eq in H3; subst; in_ws.
    + apply byte_is_eq in H3; subst; in_ws.
    + apply byte_is_eq in H3; subst; in_ws.
  - destruct H as [[H1 H2] H3]. apply byte_is_eq in H1, H2, H3. subst. in_ws.
  - destruct H as [[H1 H2] H3]. apply byte_is_eq in H1, H2, H3. subst. in_ws.
Qed.

Lemma trims_app w r : In w white_space -> trims_to_empty_l (w ++ r)%list = trims_to_empty_l r.
Proof.
  intros H. unfold white_space in H. simpl in H.
  repeat (destruct H as [<-|H]; [reflexivity|]). destruct H.
Qed.

Lemma trims_sound n : forall s, (List.length s <= n)%nat -> trims_to_empty_l s = true ->
  exists ws, Forall (fun w => In w white_space) ws /\ s = List.concat ws.
Proof.
  induction n as [|n IH]; intros s Hl Ht.
  - destruct s; [|simpl in Hl; lia]. exists []. split; [constructor|reflexivity].
  - destruct s as [|a s1]; [exists []; split; [constructor|reflexivity]|].
    simpl in Hl. cbn [trims_to_empty_l] in Ht.
    destruct (space1 a) eqn:E1.
    + destruct (IH s1) as (ws & Hws & ->); [lia|assumption|].
      exists ([a] :: ws). split; [constructor; [now apply space1_ws|assumption]|reflexivity].
    + destruct s1 as [|b s2]; [discriminate|].
      destruct (space2 a b) eqn:E2.
      * simpl in Hl. destruct (IH s2) as (ws & Hws & ->); [lia|assumption|].
        exists ([a; b] :: ws). split; [constructor; [now apply space2_ws|assumption]|reflexivity].
      * destruct s2 as [|c s3]; [discriminate|].
        destruct (space3 a b c) eqn:E3; [|discriminate].
        simpl in Hl. destruct (IH s3) as (ws & Hws & ->); [lia|assumption|].
        exists ([a; b; c] :: ws).
        split; [constructor; [now apply space3_ws|assumption]|reflexivity].
Qed.

Lemma trims_to_empty_Blank s : trims_to_empty s = true <-> Blank s.
Proof.
  unfold trims_to_empty, Blank. split.
  - intros H. eapply trims_sound; eauto.
  - intros (ws & Hws & ->). induction Hws as [|w ws Hw Hws IH]; [reflexivity|].
    simpl. now rewrite trims_app.
Qed.

Lemma not_trims s : negb (trims_to_empty s) = true <-> ~ Blank s.
Proof.
  rewrite negb_true_iff. destruct (trims_to_empty s) eqn:E.
  - apply trims_to_empty_Blank in E. split; [discriminate|tauto].
  - split; [|auto]. intros _ H. apply trims_to_empty_Blank in H. congruence.
Qed.

Lemma blank_empty : Blank "".
Proof. exists []. split; [constructor|reflexivity]. Qed.

(** ** C01 *)

Definition no_nil_flags (p : provider) : Prop := forall n, lookup n (p_flags p) <> Some None.

Lemma rest_reads env p n dfv :
  (forall x, ~ set_by_flag p n x) ->
  (dfv = "" /\ (forall x, ~ flag_default p n x) \/ flag_default p n dfv) ->
  let r := get_string_rest env p n dfv in ReadsAs env p n (fst r) (snd r).
Proof.
  intros Hnf Hd.
  assert (Hdef : forall (Henv : forall x, ~ set_by_env env p n x),
    let r := match lookup n (p_config p) with
      | Some v => (v, false)
      | None =>
          if negb (String.eqb dfv "") then (dfv, true)
          else (match p_defaults p with
                | None => ""
                | Some d => match lookup n d with Some v => v | None => "" end
                end, true)
      end in ReadsAs env p n (fst r) (snd r)).
  { intros Henv. destruct (lookup n (p_config p)) as [v|] eqn:Ec.
    - simpl. apply ReadFile; auto.
    - assert (Hnc : forall x, ~ set_by_file p n x) by (unfold set_by_file; intros x; congruence).
      destruct (String.eqb_spec dfv "") as [->|Hne].
      + destruct Hd as [[_ Hd]|(f & _ & _ & Hv & Hb)].
        * simpl. destruct (p_defaults p) as [d|] eqn:Ed.
          { destruct (lookup n d) as [v|] eqn:El.
            - apply ReadRegistered; auto. exists d; auto.
            - apply ReadNothing; auto. intros x (d' & Hd' & Hx). congruence. }
          { apply ReadNothing; auto. intros x (d' & Hd' & Hx). congruence. }
        * exfalso. apply Hb. apply blank_empty.
      + destruct Hd as [[Hd _]|Hd]; [congruence|]. simpl. apply ReadFlagDefault; auto. }
  unfold get_string_rest. destruct (lookup n (p_env_vars p)) as [e|] eqn:Ee.
  - destruct (env e) as [v|] eqn:Ev.
    + destruct (negb (trims_to_empty v)) eqn:Et.
      * simpl. apply ReadEnv; auto. exists e. repeat split; auto. now apply not_trims.
      * apply Hdef. intros x (e' & He' & Hv' & Hx).
        assert (e' = e) by congruence; subst. assert (x = v) by congruence; subst.
        apply not_trims in Hx. congruence.
    + apply Hdef. intros x (e' & He' & Hv' & _). congruence.
  - apply Hdef. intros x (e' & He' & _). congruence.
Qed.

Lemma get_string_reads env p n : lookup n (p_flags p) <> Some None ->
  exists v d, get_string env p n = Ok (v, d) /\ ReadsAs env p n v d.
Proof.
  intros Hnil. unfold get_string. destruct (lookup n (p_flags p)) as [[f|]|] eqn:Ef.
  - destruct (negb (trims_to_empty (flag_value f))) eqn:Et.
    + apply not_trims in Et. destruct (flag_changed f) eqn:Ec.
      * exists (flag_value f), false. split; [reflexivity|]. apply ReadFlag. exists f; auto.
      * destruct (get_string_rest env p n (flag_value f)) as [v d] eqn:Er.
        exists v, d. split; [reflexivity|].
        replace v with (fst (get_string_rest env p n (flag_value f))) by (now rewrite Er).
        replace d with (snd (get_string_rest env p n (flag_value f))) by (now rewrite Er).
        apply rest_reads.
        { intros x (f' & Hf' & Hc' & _). congruence. }
        { right. exists f; auto. }
    + assert (Hb : Blank (flag_value f)).
      { apply trims_to_empty_Blank. now apply negb_false_iff. }
      destruct (get_string_rest env p n "") as [v d] eqn:Er.
      exists v, d. split; [reflexivity|].
      replace v with (fst (get_string_rest env p n "")) by (now rewrite Er).
      replace d with (snd (get_string_rest env p n "")) by (now rewrite Er).
      apply rest_reads.
      { intros x (f' & Hf' & _ & Hv' & Hx). congruence. }
      { left. split; [reflexivity|]. intros x (f' & Hf' & _ & Hv' & Hx). congruence. }
  - congruence.
  - destruct (get_string_rest env p n "") as [v d] eqn:Er.
    exists v, d. split; [reflexivity|].
    replace v with (fst (get_string_rest env p n "")) by (now rewrite Er).
    replace d with (snd (get_string_rest env p n "")) by (now rewrite Er).
    apply rest_reads.
    { intros x (f' & Hf' & _). congruence. }
    { left. split; [reflexivity|]. intros x (f' & Hf' & _). congruence. }
Qed.

Lemma set_by_flag_inj p n v w : set_by_flag p n v -> set_by_flag p n w -> v = w.
Proof. intros (f & H1 & _ & H2 & _) (g & H3 & _ & H4 & _). congruence. Qed.
Lemma set_by_env_inj env p n v w : set_by_env env p n v -> set_by_env env p n w -> v = w.
Proof. intros (f & H1 & H2 & _) (g & H3 & H4 & _). congruence. Qed.
Lemma set_by_file_inj p n v w : set_by_file p n v -> set_by_file p n w -> v = w.
Proof. unfold set_by_file. congruence. Qed.
Lemma flag_default_inj p n v w : flag_default p n v -> flag_default p n w -> v = w.
Proof. intros (f & H1 & _ & H2 & _) (g & H3 & _ & H4 & _). congruence. Qed.
Lemma registered_inj p n v w : registered_default p n v -> registered_default p n w -> v = w.
Proof. intros (f & H1 & H2) (g & H3 & H4). congruence. Qed.

Lemma ReadsAs_det env p n v d w e : ReadsAs env p n v d -> ReadsAs env p n w e -> v = w /\ d = e.
Proof.
  intros H1 H2. destruct H1; destruct H2; split; try reflexivity;
  try match goal with
  | H : forall x, ~ _ _ _ x , K : _ _ _ ?v |- _ => exfalso; exact (H v K)
  | H : forall x, ~ set_by_env _ _ _ x , K : set_by_env _ _ _ ?v |- _ => exfalso; exact (H v K)
  end;
  eauto using set_by_flag_inj, set_by_env_inj, set_by_file_inj, flag_default_inj, registered_inj.
Qed.

Lemma get_string_precedence env p n v d : lookup n (p_flags p) <> Some None ->
  (get_string env p n = Ok (v, d) <-> ReadsAs env p n v d).
Proof.
  intros Hnil. destruct (get_string_reads env p n Hnil) as (v' & d' & Hg & Hr). split.
  - intros H. rewrite Hg in H. inversion H; subst. exact Hr.
  - intros H. destruct (ReadsAs_det _ _ _ _ _ _ _ H Hr) as [-> ->]. exact Hg.
Qed.

Lemma get_string_nil_flag env p n : lookup n (p_flags p) = Some None -> get_string env p n = Panic.
Proof. intros H. unfold get_string. now rewrite H. Qed.

(** ** C02: decimal numerals *)

Fixpoint horner (acc : Z) (u : uint) : Z :=
  match u with
  | Nil => acc
  | D0 l => horner (acc * 10) l | D1 l => horner (acc * 10 + 1) l
  | D2 l => horner (acc * 10 + 2) l | D3 l => horner (acc * 10 + 3) l
  | D4 l => horner (acc * 10 + 4) l | D5 l => horner (acc * 10 + 5) l
  | D6 l => horner (acc * 10 + 6) l | D7 l => horner (acc * 10 + 7) l
  | D8 l => horner (acc * 10 + 8) l | D9 l => horner (acc * 10 + 9) l
  end.

Lemma pos_horner u : forall acc, Zpos (Pos.of_uint_acc u acc) = horner (Zpos acc) u.
Proof.
  induction u; intros acc; cbn [Pos.of_uint_acc horner]; [reflexivity|..];
    rewrite IHu; f_equal; lia.
Qed.

Lemma Zof_uint_horner u : Z.of_uint u = horner 0 u.
Proof.
  unfold Z.of_uint. induction u; cbn [Pos.of_uint horner]; [reflexivity|exact IHu|..];
    cbn [Z.of_N]; rewrite pos_horner; f_equal.
Qed.

Lemma horner_ge u : forall acc, 0 <= acc -> acc <= horner acc u.
Proof.
  induction u; intros acc H; cbn [horner]; [lia|..];
    (etransitivity; [|apply IHu; lia]); lia.
Qed.

Lemma char_digit c (o : option uint) :
  match digit_value c with
  | None => uint_of_char c o = None
  | Some d => 0 <= d <= 9 /\
      match o with
      | None => uint_of_char c o = None
      | Some u => exists u', uint_of_char c o = Some u' /\ forall acc, horner acc u' = horner (acc * 10 + d) u
      end
  end.
Proof.
  destruct c as [b0 b1 b2 b3 b4 b5 b6 b7].
  destruct b0, b1, b2, b3, b4, b5, b6, b7; destruct o as [u|]; vm_compute digit_value; cbv iota;
    try reflexivity; split; try lia; try reflexivity;
    (eexists; split; [reflexivity|]); intros acc; cbn [horner]; f_equal; lia.
Qed.

Lemma parse_uint_loop_spec maxv s : forall acc, 0 <= acc <= maxv -> forall v,
  parse_uint_loop maxv acc (list_ascii_of_string s) = Some v <->
  exists u, NilEmpty.uint_of_string s = Some u /\ v = horner acc u /\ v <= maxv.
Proof.
  induction s as [|c s IH]; intros acc Hacc v; cbn [list_ascii_of_string parse_uint_loop NilEmpty.uint_of_string].
  - split.
    + intros H; inversion H; subst. exists Nil. cbn; repeat split; lia.
    + intros (u & Hu & -> & _). inversion Hu; subst. reflexivity.
  - pose proof (char_digit c (NilEmpty.uint_of_string s)) as Hc.
    destruct (digit_value c) as [d|].
    + destruct Hc as [Hd Hc]. cbv zeta.
      destruct (NilEmpty.uint_of_string s) as [u|] eqn:Eu.
      * destruct Hc as (u' & Hu' & Hh). destruct (Z.ltb_spec maxv (acc * 10 + d)) as [Hlt|Hge].
        { split; [discriminate|]. intros (u2 & H2 & -> & Hm).
          rewrite Hu' in H2; inversion H2; subst u2. rewrite Hh in Hm.
          pose proof (horner_ge u (acc * 10 + d)). lia. }
        { rewrite IH by lia. split.
          - intros (u2 & H2 & -> & Hm). inversion H2; subst u2. exists u'. now rewrite Hh.
          - intros (u2 & H2 & -> & Hm). rewrite Hu' in H2; inversion H2; subst u2.
            exists u. rewrite <- Hh. auto. }
      * rewrite Hc. split; [|intros (u2 & H2 & _); discriminate].
        destruct (Z.ltb_spec maxv (acc * 10 + d)) as [Hlt|Hge]; [discriminate|].
        rewrite IH by lia. intros (u2 & H2 & _). discriminate.
    + rewrite Hc. split; [discriminate|]. intros (u2 & H2 & _). discriminate.
Qed.

Lemma NilZero_NilEmpty s u : NilZero.uint_of_string s = Some u <-> s <> "" /\ NilEmpty.uint_of_string s = Some u.
Proof.
  unfold NilZero.uint_of_string. destruct s.
  - split; [discriminate|intros [H _]; congruence].
  - split; [intros H; split; [discriminate|exact H]|tauto].
Qed.

Lemma parse_uint_spec bits s v : 0 <= bits ->
  parse_uint bits (list_ascii_of_string s) = Some v <-> denotes_nat s v /\ 0 <= v <= 2 ^ bits - 1.
Proof.
  intros Hb. assert (0 < 2 ^ bits) by (apply Z.pow_pos_nonneg; lia).
  unfold parse_uint, denotes_nat. destruct s as [|c s].
  - cbn. split; [discriminate|]. intros [(u & Hu & _) _]. discriminate.
  - replace (match list_ascii_of_string (String c s) with [] => None
             | _ :: _ => parse_uint_loop (2 ^ bits - 1) 0 (list_ascii_of_string (String c s)) end)
      with (parse_uint_loop (2 ^ bits - 1) 0 (list_ascii_of_string (String c s))) by reflexivity.
    rewrite parse_uint_loop_spec by lia. split.
    + intros (u & Hu & -> & Hm). pose proof (horner_ge u 0). split; [|lia].
      exists u. split; [apply NilZero_NilEmpty; split; [discriminate|exact Hu]|apply Zof_uint_horner].
    + intros [(u & Hu & <-) Hm]. apply NilZero_NilEmpty in Hu. exists u.
      rewrite Zof_uint_horner in *. repeat split; [apply Hu|lia].
Qed.

Lemma denotes_nat_nonneg s z : denotes_nat s z -> 0 <= z.
Proof. intros (u & _ & <-). rewrite Zof_uint_horner. apply horner_ge. lia. Qed.

Lemma denotes_nat_first s z : denotes_nat s z -> exists c s', s = String c s' /\ byte_in 48 57 c = true.
Proof.
  intros (u & Hu & _). apply NilZero_NilEmpty in Hu. destruct Hu as [Hne Hu].
  destruct s as [|c s']; [congruence|]. exists c, s'. split; [reflexivity|].
  cbn [NilEmpty.uint_of_string] in Hu. pose proof (char_digit c (NilEmpty.uint_of_string s')) as Hc.
  unfold digit_value in Hc. destruct (byte_in 48 57 c); [reflexivity|]. congruence.
Qed.

Lemma parse_int_spec bits s v : 1 <= bits ->
  parse_int bits (list_ascii_of_string s) = Some v <->
  denotes_int s v /\ - 2 ^ (bits - 1) <= v <= 2 ^ (bits - 1) - 1.
Proof.
  intros Hb. assert (0 < 2 ^ (bits - 1)) by (apply Z.pow_pos_nonneg; lia).
  assert (Hpow : 2 ^ bits = 2 * 2 ^ (bits - 1)).
  { rewrite <- Z.pow_succ_r by lia. f_equal. lia. }
  unfold parse_int. destruct s as [|c s].
  - cbn. split; [discriminate|].
    intros [[H1|[(s' & H1 & _)|(s' & H1 & _)]] _]; [|discriminate|discriminate].
    apply denotes_nat_first in H1. destruct H1 as (c & s' & H1 & _). discriminate.
  - cbn [list_ascii_of_string]. cbv zeta.
    destruct (byte_is 45 c) eqn:Eneg.
    + apply byte_is_eq in Eneg. change (ascii_of_N 45) with "-"%char in Eneg. subst c.
      rewrite orb_true_r.
      assert (HD : forall x, denotes_int (String "-" s) x <-> denotes_nat s (- x)).
      { intros x. unfold denotes_int. split.
        - intros [H1|[(s' & H1 & _)|(s' & H1 & H2)]].
          + apply denotes_nat_first in H1. destruct H1 as (c & s' & H1 & H2).
            inversion H1; subst. discriminate.
          + discriminate.
          + inversion H1; subst. exact H2.
        - intros H1. right; right. exists s. auto. }
      rewrite HD. cbn [negb andb].
      destruct (parse_uint bits (list_ascii_of_string s)) as [un|] eqn:Eu.
      * apply parse_uint_spec in Eu; [|lia]. destruct Eu as [Hu Hr].
        destruct (Z.ltb_spec (2 ^ (bits - 1)) un) as [Hlt|Hge].
        { split; [discriminate|]. intros [H1 H2].
          destruct H1 as (u1 & H1 & H1'), Hu as (u2 & H3 & H3'). rewrite H1 in H3. inversion H3; subst. lia. }
        { split.
          - intros H1; inversion H1; subst. rewrite Z.opp_involutive. split; [exact Hu|lia].
          - intros [H1 H2]. destruct H1 as (u1 & H1 & H1'), Hu as (u2 & H3 & H3').
            rewrite H1 in H3. inversion H3; subst. f_equal. lia. }
      * split; [discriminate|]. intros [H1 H2].
        assert (Hn : parse_uint bits (list_ascii_of_string s) = Some (- v)); [|congruence].
        apply parse_uint_spec; [lia|]. split; [exact H1|].
        pose proof (denotes_nat_nonneg _ _ H1). lia.
    + rewrite orb_false_r. destruct (byte_is 43 c) eqn:Epos.
      * apply byte_is_eq in Epos. change (ascii_of_N 43) with "+"%char in Epos. subst c.
        assert (HD : forall x, denotes_int (String "+" s) x <-> denotes_nat s x).
        { intros x. unfold denotes_int. split.
          - intros [H1|[(s' & H1 & H2)|(s' & H1 & H2)]].
            + apply denotes_nat_first in H1. destruct H1 as (c & s' & H1 & H2).
              inversion H1; subst. discriminate.
            + inversion H1; subst. exact H2.
            + discriminate.
          - intros H1. right; left. exists s. auto. }
        rewrite HD. cbn [negb andb].
        destruct (parse_uint bits (list_ascii_of_string s)) as [un|] eqn:Eu.
        { apply parse_uint_spec in Eu; [|lia]. destruct Eu as [Hu Hr].
          destruct (Z.leb_spec (2 ^ (bits - 1)) un) as [Hlt|Hge].
          - split; [discriminate|]. intros [H1 H2].
            destruct H1 as (u1 & H1 & H1'), Hu as (u2 & H3 & H3'). rewrite H1 in H3. inversion H3; subst. lia.
          - split.
            + intros H1; inversion H1; subst. split; [exact Hu|lia].
            + intros [H1 H2]. destruct H1 as (u1 & H1 & H1'), Hu as (u2 & H3 & H3').
              rewrite H1 in H3. inversion H3; subst. f_equal. }
        { split; [discriminate|]. intros [H1 H2].
          assert (Hn : parse_uint bits (list_ascii_of_string s) = Some v); [|congruence].
          apply parse_uint_spec; [lia|]. split; [exact H1|].
          pose proof (denotes_nat_nonneg _ _ H1). lia. }
      * assert (HD : forall x, denotes_int (String c s) x <-> denotes_nat (String c s) x).
        { intros x. unfold denotes_int. split; [|auto].
          intros [H1|[(s' & H1 & H2)|(s' & H1 & H2)]]; [exact H1| |].
          - inversion H1; subst. discriminate.
          - inversion H1; subst. discriminate. }
        rewrite HD. cbn [negb andb]. change (c :: list_ascii_of_string s) with (list_ascii_of_string (String c s)).
        destruct (parse_uint bits (list_ascii_of_string (String c s))) as [un|] eqn:Eu.
        { apply parse_uint_spec in Eu; [|lia]. destruct Eu as [Hu Hr].
          destruct (Z.leb_spec (2 ^ (bits - 1)) un) as [Hlt|Hge].
          - split; [discriminate|]. intros [H1 H2].
            destruct H1 as (u1 & H1 & H1'), Hu as (u2 & H3 & H3'). rewrite H1 in H3. inversion H3; subst. lia.
          - split.
            + intros H1; inversion H1; subst. split; [exact Hu|lia].
            + intros [H1 H2]. destruct H1 as (u1 & H1 & H1'), Hu as (u2 & H3 & H3').
              rewrite H1 in H3. inversion H3; subst. f_equal. }
        { split; [discriminate|]. intros [H1 H2].
          assert (Hn : parse_uint bits (list_ascii_of_string (String c s)) = Some v); [|congruence].
          apply parse_uint_spec; [lia|]. split; [exact H1|].
          pose proof (denotes_nat_nonneg _ _ H1). lia. }
Qed.

Lemma get_typed_int env p n (denotes : string -> Z -> Prop) lo hi parse v d :
  (forall s z, parse s = Some z <-> denotes s z /\ lo <= z <= hi) ->
  lo <= 0 <= hi ->
  (forall z, ~ denotes "" z) ->
  lookup n (p_flags p) <> Some None ->
  (get_typed env parse 0 p n = Ok (v, d) <->
   exists s, ReadsAs env p n s d /\ reads_int denotes lo hi s v).
Proof.
  intros Hp Hlo Hempty Hnil.
  destruct (get_string_reads env p n Hnil) as (s & d0 & Hg & Hr).
  unfold get_typed. rewrite Hg. cbn [obind].
  assert (Hs : forall s' d', ReadsAs env p n s' d' -> s' = s /\ d' = d0)
    by (intros s' d' H; eapply ReadsAs_det; eauto).
  destruct (String.eqb_spec s "") as [->|Hne].
  - split.
    + intros H; inversion H; subst. exists "". split; [exact Hr|]. right. split; [|reflexivity].
      intros x Hx. exfalso. exact (Hempty x Hx).
    + intros (s' & Hs' & Hv). apply Hs in Hs'. destruct Hs' as [-> ->].
      destruct Hv as [[Hv _]|[_ ->]]; [exfalso; exact (Hempty _ Hv)|reflexivity].
  - destruct (parse s) as [z|] eqn:Ep.
    + apply Hp in Ep. split.
      * intros H; inversion H; subst. exists s. split; [exact Hr|]. left. exact Ep.
      * intros (s' & Hs' & Hv). apply Hs in Hs'. destruct Hs' as [-> ->].
        destruct Hv as [Hv|[Hv ->]].
        { apply Hp in Hv. apply Hp in Ep. rewrite Hv in Ep. inversion Ep; subst; reflexivity. }
        { exfalso. apply (Hv z); tauto. }
    + split.
      * intros H; inversion H; subst. exists s. split; [exact Hr|]. right. split; [|reflexivity].
        intros x Hx Hr'. assert (parse s = Some x) by (apply Hp; auto). congruence.
      * intros (s' & Hs' & Hv). apply Hs in Hs'. destruct Hs' as [-> ->].
        destruct Hv as [Hv|[_ ->]]; [|reflexivity].
        assert (parse s = Some v) by (apply Hp; auto). congruence.
Qed.

Lemma denotes_nat_empty z : ~ denotes_nat "" z.
Proof. intros H. apply denotes_nat_first in H. destruct H as (c & s & H & _). discriminate. Qed.
Lemma denotes_int_empty z : ~ denotes_int "" z.
Proof.
  intros [H|[(s & H & _)|(s & H & _)]]; [now apply denotes_nat_empty in H|discriminate|discriminate].
Qed.

Lemma get_int32_spec env p n v d : lookup n (p_flags p) <> Some None ->
  (get_int32 env p n = Ok (v, d) <->
   exists s, ReadsAs env p n s d /\ reads_int denotes_int (- 2 ^ 31) (2 ^ 31 - 1) s v).
Proof.
  intros Hn. unfold get_int32. apply get_typed_int; auto using denotes_int_empty; [|lia].
  intros s z. rewrite (parse_int_spec 32) by lia. reflexivity.
Qed.
Lemma get_int64_spec env p n v d : lookup n (p_flags p) <> Some None ->
  (get_int64 env p n = Ok (v, d) <->
   exists s, ReadsAs env p n s d /\ reads_int denotes_int (- 2 ^ 63) (2 ^ 63 - 1) s v).
Proof.
  intros Hn. unfold get_int64. apply get_typed_int; auto using denotes_int_empty; [|lia].
  intros s z. rewrite (parse_int_spec 64) by lia. reflexivity.
Qed.
Lemma get_uint32_spec env p n v d : lookup n (p_flags p) <> Some None ->
  (get_uint32 env p n = Ok (v, d) <->
   exists s, ReadsAs env p n s d /\ reads_int denotes_nat 0 (2 ^ 32 - 1) s v).
Proof.
  intros Hn. unfold get_uint32. apply get_typed_int; auto using denotes_nat_empty; [|lia].
  intros s z. rewrite (parse_uint_spec 32) by lia. reflexivity.
Qed.
Lemma get_uint64_spec env p n v d : lookup n (p_flags p) <> Some None ->
  (get_uint64 env p n = Ok (v, d) <->
   exists s, ReadsAs env p n s d /\ reads_int denotes_nat 0 (2 ^ 64 - 1) s v).
Proof.
  intros Hn. unfold get_uint64. apply get_typed_int; auto using denotes_nat_empty; [|lia].
  intros s z. rewrite (parse_uint_spec 64) by lia. reflexivity.
Qed.

Lemma existsb_In s l : existsb (String.eqb s) l = true <-> In s l.
Proof.
  rewrite existsb_exists. split.
  - intros (x & Hx & He). apply String.eqb_eq in He. now subst.
  - intros H. exists s. split; [exact H|apply String.eqb_refl].
Qed.

Lemma get_bool_spec env p n v d : lookup n (p_flags p) <> Some None ->
  (get_bool env p n = Ok (v, d) <->
   exists s, ReadsAs env p n s d /\ (v = true <-> In s true_texts)).
Proof.
  intros Hnil. destruct (get_string_reads env p n Hnil) as (s & d0 & Hg & Hr).
  unfold get_bool, get_typed. rewrite Hg. cbn [obind].
  assert (Hs : forall s' d', ReadsAs env p n s' d' -> s' = s /\ d' = d0)
    by (intros s' d' H; eapply ReadsAs_det; eauto).
  assert (Hb : forall b, (if String.eqb s "" then Ok (false, d0) else
      match parse_bool s with Some a => Ok (a, d0) | None => Ok (false, d0) end : outcome unit (bool * bool)) = Ok (b, d0) <-> (b = true <-> In s true_texts)).
  { intros b. destruct (String.eqb_spec s "") as [->|Hne].
    - split.
      + intros H; inversion H; subst. split; [discriminate|]. cbn. intuition discriminate.
      + intros H. destruct b; [|reflexivity]. destruct H as [H _]. specialize (H eq_refl). cbn in H.
        intuition discriminate.
    - unfold parse_bool. change ["1"; "t"; "T"; "true"; "TRUE"; "True"] with true_texts.
      destruct (existsb (String.eqb s) true_texts) eqn:E.
      + pose proof E as E'. apply existsb_In in E'. split.
        * intros H; inversion H; subst. tauto.
        * intros H. destruct b; [reflexivity|]. destruct H as [_ H]. specialize (H E'). discriminate.
      + assert (E' : ~ In s true_texts). { rewrite <- existsb_In. congruence. }
        match goal with |- context [existsb ?f ?l] => destruct (existsb f l) end;
        (split; [intros H; inversion H; subst; split; [discriminate|tauto]|
                 intros H; destruct b; [exfalso; tauto|reflexivity]]). }
  split.
  - intros H. assert (Hd : d = d0).
    { destruct (String.eqb s ""); [inversion H; reflexivity|destruct (parse_bool s); inversion H; reflexivity]. }
    subst d0. exists s. split; [exact Hr|]. now apply Hb.
  - intros (s' & Hs' & Hv). apply Hs in Hs'. destruct Hs' as [-> ->]. now apply Hb.
Qed.

(** Round trip of decimal texts. *)
Lemma decimal_text_denotes z : denotes_int (decimal_text z) z.
Proof.
  unfold decimal_text, denotes_int, denotes_nat.
  destruct (Z.to_int z) as [u|u] eqn:Ez.
  - left. exists u.
    assert (Hz : Z.of_int (Z.to_int z) = z) by apply DecimalZ.of_to. rewrite Ez in Hz. cbn in Hz.
    split; [|exact Hz]. cbn [NilZero.string_of_int].
    apply DecimalString.NilZero.usu. intros ->.
    cbn in Hz. subst z. cbn in Ez. discriminate.
  - right; right. exists (NilZero.string_of_uint u).
    assert (Hz : Z.of_int (Z.to_int z) = z) by apply DecimalZ.of_to. rewrite Ez in Hz. cbn [Z.of_int] in Hz.
    split; [reflexivity|]. exists u. split; [|rewrite <- Hz; lia].
    apply DecimalString.NilZero.usu. intros ->. cbn in Hz. subst z. cbn in Ez. discriminate.
Qed.

Lemma decimal_text_denotes_nat z : 0 <= z -> denotes_nat (decimal_text z) z.
Proof.
  intros H. destruct (decimal_text_denotes z) as [H1|[(s' & H1 & _)|(s' & H1 & H2)]]; [exact H1| |].
  - unfold decimal_text in H1. destruct z as [|q|q]; [discriminate| |lia].
    cbn [Z.to_int NilZero.string_of_int] in H1. unfold NilZero.string_of_uint in H1.
    destruct (Pos.to_uint q); cbn in H1; discriminate.
  - apply denotes_nat_nonneg in H2. assert (z = 0) by lia. subst. discriminate.
Qed.

Lemma denotes_nat_fun s x y : denotes_nat s x -> denotes_nat s y -> x = y.
Proof. intros (u & H1 & <-) (w & H2 & <-). congruence. Qed.
Lemma denotes_int_fun s x y : denotes_int s x -> denotes_int s y -> x = y.
Proof.
  intros Hx Hy.
  destruct Hx as [H1|[(s1 & -> & H1)|(s1 & -> & H1)]];
  destruct Hy as [H2|[(s2 & E2 & H2)|(s2 & E2 & H2)]]; subst;
    try (inversion E2; subst); eauto using denotes_nat_fun.
  - apply denotes_nat_first in H1. destruct H1 as (c & s' & H1 & H3). inversion H1; subst. discriminate.
  - apply denotes_nat_first in H1. destruct H1 as (c & s' & H1 & H3). inversion H1; subst. discriminate.
  - apply denotes_nat_first in H2. destruct H2 as (c & s' & H2 & H3). inversion H2; subst. discriminate.
  - apply denotes_nat_first in H2. destruct H2 as (c & s' & H2 & H3). inversion H2; subst. discriminate.
  - pose proof (denotes_nat_fun _ _ _ H1 H2). lia.
Qed.

Lemma int64_round_trip env p n d z :
  lookup n (p_flags p) <> Some None -> - 2 ^ 63 <= z <= 2 ^ 63 - 1 ->
  ReadsAs env p n (decimal_text z) d -> get_int64 env p n = Ok (z, d).
Proof.
  intros Hn Hz Hr. apply get_int64_spec; [exact Hn|]. exists (decimal_text z). split; [exact Hr|].
  left. split; [apply decimal_text_denotes|exact Hz].
Qed.
Lemma int32_round_trip env p n d z :
  lookup n (p_flags p) <> Some None -> - 2 ^ 31 <= z <= 2 ^ 31 - 1 ->
  ReadsAs env p n (decimal_text z) d -> get_int32 env p n = Ok (z, d).
Proof.
  intros Hn Hz Hr. apply get_int32_spec; [exact Hn|]. exists (decimal_text z). split; [exact Hr|].
  left. split; [apply decimal_text_denotes|exact Hz].
Qed.
Lemma uint32_round_trip env p n d z :
  lookup n (p_flags p) <> Some None -> 0 <= z <= 2 ^ 32 - 1 ->
  ReadsAs env p n (decimal_text z) d -> get_uint32 env p n = Ok (z, d).
Proof.
  intros Hn Hz Hr. apply get_uint32_spec; [exact Hn|]. exists (decimal_text z). split; [exact Hr|].
  left. split; [apply decimal_text_denotes_nat; lia|exact Hz].
Qed.
Lemma uint64_round_trip env p n d z :
  lookup n (p_flags p) <> Some None -> 0 <= z <= 2 ^ 64 - 1 ->
  ReadsAs env p n (decimal_text z) d -> get_uint64 env p n = Ok (z, d).
Proof.
  intros Hn Hz Hr. apply get_uint64_spec; [exact Hn|]. exists (decimal_text z). split; [exact Hr|].
  left. split; [apply decimal_text_denotes_nat; lia|exact Hz].
Qed.

(** ** C03 *)
Lemma step_defaults_nil p o p' : p_defaults p = None -> config_step p o = Ok p' ->
  p_defaults p' = None /\ (forall n v, o <> OpSetDefault n v).
Proof.
  intros Hn H. destruct o; cbn in H; try (inversion H; subst; split; [exact Hn|discriminate]).
  unfold set_default in H. rewrite Hn in H. discriminate.
Qed.

Lemma run_defaults_nil os : forall p p', p_defaults p = None -> config_run p os = Ok p' ->
  p_defaults p' = None /\ (forall n v, ~ In (OpSetDefault n v) os).
Proof.
  induction os as [|o os IH]; intros p p' Hn H; cbn in H.
  - inversion H; subst. split; [exact Hn|intros n v []].
  - destruct (config_step p o) as [p1| |] eqn:E; cbn in H; try discriminate.
    destruct (step_defaults_nil _ _ _ Hn E) as [Hn1 Ho].
    destruct (IH _ _ Hn1 H) as [Hn' Hos]. split; [exact Hn'|].
    intros n v [H1|H1]; [exact (Ho n v H1)|exact (Hos n v H1)].
Qed.

Lemma run_set_default_panics os : forall p n v, p_defaults p = None ->
  In (OpSetDefault n v) os -> config_run p os = Panic.
Proof.
  induction os as [|o os IH]; intros p n v Hn Hin; [destruct Hin|].
  cbn. destruct Hin as [->|Hin].
  - cbn. unfold set_default. now rewrite Hn.
  - destruct o; cbn; try (eapply IH; eauto; fail).
    unfold set_default. now rewrite Hn.
Qed.

Lemma no_registered_default env os p n :
  config_run new_provider os = Ok p ->
  (forall x, ~ registered_default p n x)
  /\ (forall v d, ReadsAs env p n v d -> d = true -> v = "" \/ flag_default p n v).
Proof.
  intros H. destruct (run_defaults_nil os new_provider p eq_refl H) as [Hd _].
  assert (Hno : forall x, ~ registered_default p n x) by (intros x (d & Hd' & _); congruence).
  split; [exact Hno|].
  intros v d Hr E. subst d. inversion Hr; subst; auto. exfalso. eapply Hno; eauto.
Qed.

(** ** C04 *)
Lemma validate_connect_protocol_spec goos v :
  validate_connect_protocol goos v = true <-> v = "tcp" \/ (v = "unix" /\ goos <> "windows").
Proof.
  unfold validate_connect_protocol.
  destruct (String.eqb_spec v "tcp") as [->|H1]; [intuition|].
  destruct (String.eqb_spec v "unix") as [->|H2].
  - destruct (String.eqb_spec goos "windows"); intuition congruence.
  - intuition congruence.
Qed.

Lemma validate_language_spec v : validate_language v = true <->
  v = "" \/ v = "nodejs" \/ v = "python" \/ v = "java" \/ v = "dotnet" \/ v = "go" \/ v = "rust".
Proof.
  unfold validate_language. destruct (String.eqb_spec v "") as [->|H]; [intuition|].
  rewrite existsb_In. cbn. intuition.
Qed.

Lemma substring_app a : forall b, String.substring (String.length a) (String.length b) (a ++ b) = b.
Proof.
  induction a as [|c a IH]; intros b.
  - cbn. induction b as [|c b IHb]; [reflexivity|cbn; now rewrite IHb].
  - cbn. apply IH.
Qed.

Lemma string_split n : forall s, (n <= String.length s)%nat ->
  exists a, s = a ++ String.substring n (String.length s - n) s /\ String.length a = n.
Proof.
  induction n as [|n IH]; intros s H.
  - exists "". rewrite Nat.sub_0_r. split; [|reflexivity]. cbn.
    clear H. induction s as [|c s IHs]; [reflexivity|cbn; now rewrite <- IHs].
  - destruct s as [|c s]; [cbn in H; lia|]. cbn in H.
    destruct (IH s) as (a & Ha & Hl); [lia|]. exists (String c a).
    cbn. split; [now rewrite <- Ha|now rewrite Hl].
Qed.

Lemma length_app a b : String.length (a ++ b) = (String.length a + String.length b)%nat.
Proof. induction a as [|c a IH]; [reflexivity|cbn; now rewrite IH]. Qed.

Lemma has_suffix_spec s suf : has_suffix s suf = true <-> exists a, s = a ++ suf.
Proof.
  unfold has_suffix. destruct (Nat.ltb_spec (String.length s) (String.length suf)) as [Hlt|Hge].
  - split; [discriminate|]. intros (a & ->). rewrite length_app in Hlt. lia.
  - split.
    + intros H. apply String.eqb_eq in H.
      destruct (string_split (String.length s - String.length suf) s) as (a & Ha & _); [lia|].
      exists a. rewrite Ha at 1. f_equal. rewrite <- H at 3. f_equal. lia.
    + intros (a & ->). rewrite length_app.
      replace (String.length a + String.length suf - String.length suf)%nat with (String.length a) by lia.
      rewrite substring_app. apply String.eqb_refl.
Qed.

Lemma format_of_spec path :
  (exists f, format_of path = Some f) <->
  exists stem, path = stem ++ ".yaml" \/ path = stem ++ ".yml" \/ path = stem ++ ".json" \/ path = stem ++ ".toml".
Proof.
  unfold format_of.
  destruct (has_suffix path ".yaml") eqn:E1;
  [|destruct (has_suffix path ".yml") eqn:E2;
    [|destruct (has_suffix path ".json") eqn:E3;
      [|destruct (has_suffix path ".toml") eqn:E4]]]; cbn [orb].
  1: apply has_suffix_spec in E1; destruct E1 as (a & E); split; [exists a; tauto|eauto].
  1: apply has_suffix_spec in E2; destruct E2 as (a & E); split; [exists a; tauto|eauto].
  1: apply has_suffix_spec in E3; destruct E3 as (a & E); split; [exists a; tauto|eauto].
  1: apply has_suffix_spec in E4; destruct E4 as (a & E); split; [exists a; tauto|eauto].
  split; [intros (f & H); discriminate|].
  intros (stem & [H|[H|[H|H]]]); exfalso;
  [ assert (has_suffix path ".yaml" = true) by (apply has_suffix_spec; eauto); congruence
  | assert (has_suffix path ".yml" = true) by (apply has_suffix_spec; eauto); congruence
  | assert (has_suffix path ".json" = true) by (apply has_suffix_spec; eauto); congruence
  | assert (has_suffix path ".toml" = true) by (apply has_suffix_spec; eauto); congruence].
Qed.

Lemma suffix_last_unique a b x y : a ++ x = b ++ y -> String.length x = String.length y -> x = y.
Proof.
  revert b. induction a as [|c a IH]; intros [|d b] H Hl; cbn in H.
  - exact H.
  - exfalso. subst x. cbn in Hl. rewrite length_app in Hl. lia.
  - exfalso. subst y. cbn in Hl. rewrite length_app in Hl. lia.
  - inversion H; subst. eapply IH; eauto.
Qed.

Lemma merge_config_lookup es : forall old k,
  lookup k (merge_config old es) =
  match lookup k (rev es) with Some v => Some v | None => lookup k old end.
Proof.
  induction es as [|[k' v'] es IH] using rev_ind; intros old k; [reflexivity|].
  unfold merge_config. rewrite fold_left_app, rev_app_distr. cbn.
  rewrite lookup_insert. destruct (String.eqb_spec k k'); [reflexivity|apply IH].
Qed.

Lemma pre_run_spec open_file decode env goos p path p' :
  pre_run open_file decode env goos p path = Ok p' ->
  (exists content fmt entries, open_file path = Some content /\ format_of path = Some fmt
     /\ decode fmt content = Some entries
     /\ p' = {| p_config := merge_config (p_config p) entries; p_flags := p_flags p;
                p_env_vars := p_env_vars p; p_defaults := p_defaults p |})
  /\ exists v d, ReadsAs env p' "connectProtocol" v d
       /\ (v = "tcp" \/ (v = "unix" /\ goos <> "windows")).
Proof.
  unfold pre_run, load_config_file. intros H.
  destruct (open_file path) as [content|] eqn:Eo; [|discriminate].
  destruct (format_of path) as [fmt|] eqn:Ef; [|discriminate].
  destruct (decode fmt content) as [entries|] eqn:Ed; [|discriminate].
  match type of H with context [get_string env ?q _] => set (p2 := q) in * end.
  destruct (get_string env p2 "connectProtocol") as [[v d]| |] eqn:Eg; try discriminate.
  destruct (validate_connect_protocol goos v) eqn:Ev; inversion H; subst p'.
  split; [exists content, fmt, entries; auto|].
  exists v, d. split; [|now apply validate_connect_protocol_spec].
  apply get_string_precedence; [|exact Eg].
  intros Hn. unfold get_string in Eg. now rewrite Hn in Eg.
Qed.

Lemma pre_run_no_file open_file decode env goos p path :
  open_file path = None -> pre_run open_file decode env goos p path = Err (PreLoad OpenFailed).
Proof. intros H. unfold pre_run, load_config_file. now rewrite H. Qed.

Lemma pre_run_complete open_file decode env goos p path content fmt entries v d p' :
  open_file path = Some content -> format_of path = Some fmt -> decode fmt content = Some entries ->
  p' = {| p_config := merge_config (p_config p) entries; p_flags := p_flags p;
          p_env_vars := p_env_vars p; p_defaults := p_defaults p |} ->
  lookup "connectProtocol" (p_flags p) <> Some None ->
  ReadsAs env p' "connectProtocol" v d ->
  (v = "tcp" \/ (v = "unix" /\ goos <> "windows")) ->
  pre_run open_file decode env goos p path = Ok p'.
Proof.
  intros Ho Hf Hd Hp' Hn Hr Hv. unfold pre_run, load_config_file. rewrite Ho, Hf, Hd, <- Hp'.
  assert (Hg : get_string env p' "connectProtocol" = Ok (v, d)).
  { apply get_string_precedence; [subst p'; exact Hn|exact Hr]. }
  rewrite Hg. now rewrite (proj2 (validate_connect_protocol_spec goos v) Hv).
Qed.

Lemma init_run_spec env p lang : lookup "initLanguage" (p_flags p) <> Some None ->
  (init_run env p = Ok lang <->
   (exists d, ReadsAs env p "initLanguage" lang d) /\
   In lang [""; "nodejs"; "python"; "java"; "dotnet"; "go"; "rust"]).
Proof.
  intros Hn. destruct (get_string_reads env p "initLanguage" Hn) as (v & d & Hg & Hr).
  unfold init_run. rewrite Hg. pose proof (validate_language_spec v) as Hl.
  destruct (validate_language v) eqn:E.
  - split.
    + intros H; inversion H; subst. split; [eauto|]. cbn. destruct Hl as [Hl _]. specialize (Hl eq_refl). intuition.
    + intros [(d' & H) _]. destruct (ReadsAs_det _ _ _ _ _ _ _ H Hr) as [-> _]. reflexivity.
  - split; [discriminate|]. intros [(d' & H) Hin].
    destruct (ReadsAs_det _ _ _ _ _ _ _ H Hr) as [-> _].
    assert (false = true); [|discriminate]. apply Hl. cbn in Hin. intuition.
Qed.

(** ** Histories *)
Lemma run_sources os : forall p p', config_run p os = Ok p' -> forall n,
  lookup n (p_env_vars p') = last_value (binds_env n) (lookup n (p_env_vars p)) os
  /\ lookup n (p_flags p') = last_value (binds_flag n) (lookup n (p_flags p)) os
  /\ lookup n (p_config p') = last_value (loads_entry n) (lookup n (p_config p)) os.
Proof.
  induction os as [|o os IH]; intros p p' H n; cbn in H.
  - inversion H; subst. cbn. auto.
  - destruct (config_step p o) as [p1| |] eqn:E; cbn in H; try discriminate.
    destruct (IH _ _ H n) as (H1 & H2 & H3). rewrite H1, H2, H3. cbn [last_value].
    destruct o; cbn in E |- *.
    + inversion E; subst; cbn. rewrite lookup_insert. destruct (String.eqb n name); auto.
    + inversion E; subst; cbn. rewrite lookup_insert. destruct (String.eqb n name); auto.
    + unfold set_default in E. destruct (p_defaults p); inversion E; subst; cbn; auto.
    + inversion E; subst; cbn. rewrite merge_config_lookup. auto.
Qed.

Lemma run_sources_assigned os p : config_run new_provider os = Ok p -> forall n,
  (forall e, lookup n (p_env_vars p) = Some e <-> last_assigned (binds_env n) os e)
  /\ (forall f, lookup n (p_flags p) = Some f <-> last_assigned (binds_flag n) os f)
  /\ (forall v, lookup n (p_config p) = Some v <-> last_assigned (loads_entry n) os v).
Proof.
  intros H n. destruct (run_sources os _ _ H n) as (H1 & H2 & H3). cbn in H1, H2, H3.
  rewrite H1, H2, H3. repeat split; intros; apply last_value_assigned; auto.
Qed.

Lemma pre_run_nil_flag open_file decode env goos p path :
  lookup "connectProtocol" (p_flags p) = Some None ->
  forall p', pre_run open_file decode env goos p path <> Ok p'.
Proof.
  intros H p'. unfold pre_run, load_config_file.
  destruct (open_file path); [|discriminate]. destruct (format_of path); [|discriminate].
  destruct (decode f s); [|discriminate]. rewrite get_string_nil_flag by exact H. discriminate.
Qed.
