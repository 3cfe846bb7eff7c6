From Coq Require Import Reals ZArith Lra.
From Flocq Require Import Core.Core IEEE754.BinarySingleNaN.
From Verif Require Import Base Json Chars Value TemplateFuncModel TemplateNumSpec.
Local Instance prec53 : Prec_gt_0 53 := eq_refl.
Local Instance prec53_emax : Prec_lt_emax 53 1024 := eq_refl.
Notation bin := (binary_float 53 1024).

(** The arithmetic of Coq's library is Flocq's (as in Flocq's PrimFloat.v). *)
Lemma even_equiv s m l : round_nearest_even m l = choice_mode mode_NE s m l.
Proof. destruct l as [|c]; [reflexivity|]. destruct c; try reflexivity. cbn. unfold Round.cond_incr. now destruct (Z.even m). Qed.
Lemma round_aux_equiv sx mx ex lx : SpecFloat.binary_round_aux 53 1024 sx mx ex lx = BinarySingleNaN.binary_round_aux 53 1024 mode_NE sx mx ex lx.
Proof. unfold SpecFloat.binary_round_aux, BinarySingleNaN.binary_round_aux. destruct (shr_fexp 53 1024 mx ex lx) as [mrs e]. cbn. now rewrite (even_equiv sx). Qed.
Lemma round_equiv s m e : SpecFloat.binary_round 53 1024 s m e = BinarySingleNaN.binary_round 53 1024 mode_NE s m e.
Proof. unfold SpecFloat.binary_round, BinarySingleNaN.binary_round, BinarySingleNaN.shl_align_fexp. destruct (shl_align _ _ _) as [mz ez]. apply round_aux_equiv. Qed.
Lemma normalize_equiv m e z : SpecFloat.binary_normalize 53 1024 m e z = B2SF (BinarySingleNaN.binary_normalize 53 1024 _ _ mode_NE m e z).
Proof. destruct m as [|p|p]; [reflexivity|cbn; rewrite B2SF_SF2B; apply round_equiv..]. Qed.
Lemma add_equiv (x y : bin) : SFadd 53 1024 (B2SF x) (B2SF y) = B2SF (Bplus mode_NE x y).
Proof. destruct x as [sx|sx| |sx mx ex Bx], y as [sy|sy| |sy my ey By]; try (now (trivial || (cbn; destruct (Bool.eqb sx sy)))). apply normalize_equiv. Qed.
Lemma sub_equiv (x y : bin) : SFsub 53 1024 (B2SF x) (B2SF y) = B2SF (Bminus mode_NE x y).
Proof.
  destruct x as [sx|sx| |sx mx ex Bx], y as [sy|sy| |sy my ey By]; try (now (trivial || (cbn; destruct (Bool.eqb sx (negb sy))))). cbn. unfold Zminus. rewrite <- cond_Zopp_negb. apply normalize_equiv.
Qed.
Lemma mul_equiv (x y : bin) : SFmul 53 1024 (B2SF x) (B2SF y) = B2SF (Bmult mode_NE x y).
Proof. destruct x as [sx|sx| |sx mx ex Bx], y as [sy|sy| |sy my ey By]; try (now trivial). cbn. rewrite B2SF_SF2B. apply round_aux_equiv. Qed.
Lemma div_equiv (x y : bin) : SFdiv 53 1024 (B2SF x) (B2SF y) = B2SF (Bdiv mode_NE x y).
Proof.
  destruct x as [sx|sx| |sx mx ex Bx], y as [sy|sy| |sy my ey By]; try (now trivial). cbn. rewrite B2SF_SF2B. destruct (SFdiv_core_binary _ _ _ _ _ _) as [[mz ez] lz]. apply round_aux_equiv.
Qed.

Lemma SF2R_B2SF (x : bin) : SF2R radix2 (B2SF x) = B2R x.
Proof. now destruct x. Qed.
Lemma fin_B2SF (x : bin) : is_finite_SF (B2SF x) = is_finite x.
Proof. now destruct x. Qed.
Lemma from_fin (x : bin) : is_finite x = true -> from_f64 (B2SF x) = Some (NFloat (B2SF x)).
Proof. destruct x; try discriminate; reflexivity. Qed.
Lemma from_over s : from_f64 (binary_overflow 53 1024 mode_NE s) = None.
Proof. reflexivity. Qed.
Lemma nearest_NE x : round radix2 (SpecFloat.fexp 53 1024) (round_mode mode_NE) x = nearest x.
Proof. reflexivity. Qed.
Lemma int_small z : (- 2 ^ 63 <= z < 2 ^ 64)%Z -> (Rabs (nearest (IZR z)) < bpow radix2 1024)%R.
Proof.
  intros H. apply Rle_lt_trans with (bpow radix2 64); [|apply bpow_lt; reflexivity]. unfold nearest. apply abs_round_le_generic; [apply FLT_exp_valid; reflexivity|apply valid_rnd_N|..].
  - apply generic_format_bpow. cbn. unfold FLT_exp. lia.
  - rewrite <- abs_IZR. change (bpow radix2 64) with (IZR (2 ^ 64)). apply IZR_le. lia.
Qed.
(** The double an argument is converted to *)
Lemma as_f64_ok n : doc_num n -> exists x : bin, as_f64 n = B2SF x /\ is_finite x = true /\ B2R x = nearest (real n).
Proof.
  destruct n as [z|f]; cbn [as_f64 doc_num real].
  - intros H. unfold f64_of_int. rewrite normalize_equiv. set (x := BinarySingleNaN.binary_normalize 53 1024 _ _ mode_NE z 0 false). exists x. split; [reflexivity|].
    pose proof (binary_normalize_correct 53 1024 prec53 prec53_emax mode_NE z 0 false) as C. cbv zeta in C. rewrite nearest_NE in C.
    replace (F2R (Float radix2 z 0)) with (IZR z) in C by (unfold F2R; cbn; lra). rewrite Rlt_bool_true in C by (apply int_small; exact H). destruct C as (C1 & C2 & _). split; [exact C2|exact C1].
  - intros [Hv Hf]. exists (SF2B f Hv). rewrite B2SF_SF2B. split; [reflexivity|]. rewrite <- fin_B2SF, <- SF2R_B2SF, B2SF_SF2B. split; [exact Hf|].
    symmetry. apply round_generic; [apply valid_rnd_N|]. rewrite <- (B2SF_SF2B 53 1024 f Hv), SF2R_B2SF. apply (generic_format_B2R 53 1024).
Qed.
Lemma arith_ok (op : spec_float -> spec_float -> spec_float) (rop : R -> R -> R) (bop : bin -> bin -> bin) a b :
  (forall x y, op (B2SF x) (B2SF y) = B2SF (bop x y)) ->
  (forall x y, is_finite x = true -> is_finite y = true -> B2R y = nearest (real b) ->
     if Rlt_bool (Rabs (nearest (rop (B2R x) (B2R y)))) (bpow radix2 1024)
     then B2R (bop x y) = nearest (rop (B2R x) (B2R y)) /\ is_finite (bop x y) = true
     else exists s, B2SF (bop x y) = binary_overflow 53 1024 mode_NE s) ->
  doc_num a -> doc_num b ->
  let r := nearest (rop (nearest (real a)) (nearest (real b))) in
  (fits r -> exists f, arith op [VNum a; VNum b] = Ok (VNum (NFloat f)) /\ doc_num (NFloat f) /\ SF2R radix2 f = r) /\
  (~ fits r -> arith op [VNum a; VNum b] = Panic).
Proof.
  intros E C Ha Hb. destruct (as_f64_ok a Ha) as (x & Ex & Fx & Rx). destruct (as_f64_ok b Hb) as (y & Ey & Fy & Ry). cbv zeta. cbn [arith]. rewrite Ex, Ey, E. specialize (C x y Fx Fy Ry). rewrite <- Rx, <- Ry. split; intros H.
  - rewrite Rlt_bool_true in C by exact H. destruct C as [C1 C2]. rewrite (from_fin _ C2). eexists. split; [reflexivity|]. rewrite SF2R_B2SF. split; [|exact C1]. split; [apply valid_binary_B2SF|]. now rewrite fin_B2SF.
  - rewrite Rlt_bool_false in C by (apply Rnot_lt_le; exact H). destruct C as [s C]. now rewrite C, from_over.
Qed.
Lemma add_ok a b : doc_num a -> doc_num b -> let r := nearest (nearest (real a) + nearest (real b)) in
  (fits r -> exists f, math_add [VNum a; VNum b] = Ok (VNum (NFloat f)) /\ doc_num (NFloat f) /\ SF2R radix2 f = r) /\ (~ fits r -> math_add [VNum a; VNum b] = Panic).
Proof.
  apply (arith_ok (SFadd 53 1024) Rplus (Bplus mode_NE)); [exact add_equiv|]. intros x y Fx Fy _. pose proof (Bplus_correct 53 1024 prec53 prec53_emax mode_NE x y Fx Fy) as C. rewrite nearest_NE in C.
  destruct (Rlt_bool _ _); [tauto|]. destruct C as [C _]. eauto.
Qed.
Lemma sub_ok a b : doc_num a -> doc_num b -> let r := nearest (nearest (real a) - nearest (real b)) in
  (fits r -> exists f, math_sub [VNum a; VNum b] = Ok (VNum (NFloat f)) /\ doc_num (NFloat f) /\ SF2R radix2 f = r) /\ (~ fits r -> math_sub [VNum a; VNum b] = Panic).
Proof.
  apply (arith_ok (SFsub 53 1024) Rminus (Bminus mode_NE)); [exact sub_equiv|]. intros x y Fx Fy _. pose proof (Bminus_correct 53 1024 prec53 prec53_emax mode_NE x y Fx Fy) as C. rewrite nearest_NE in C.
  destruct (Rlt_bool _ _); [tauto|]. destruct C as [C _]. eauto.
Qed.
Lemma mult_ok a b : doc_num a -> doc_num b -> let r := nearest (nearest (real a) * nearest (real b)) in
  (fits r -> exists f, math_mult [VNum a; VNum b] = Ok (VNum (NFloat f)) /\ doc_num (NFloat f) /\ SF2R radix2 f = r) /\ (~ fits r -> math_mult [VNum a; VNum b] = Panic).
Proof.
  apply (arith_ok (SFmul 53 1024) Rmult (Bmult mode_NE)); [exact mul_equiv|]. intros x y Fx Fy _. pose proof (Bmult_correct 53 1024 prec53 prec53_emax mode_NE x y) as C. rewrite nearest_NE in C.
  destruct (Rlt_bool _ _); [|eauto]. destruct C as (C1 & C2 & _). rewrite Fx, Fy in C2. split; [exact C1|exact C2].
Qed.
Lemma nearest_zero z : doc_num z -> (is_zero (as_f64 z) = true <-> real z = 0%R).
Proof.
  intros H. destruct (as_f64_ok z H) as (x & Ex & Fx & Rx). rewrite Ex.
  assert (A : is_zero (B2SF x) = true <-> B2R x = 0%R).
  { destruct x as [s| | |s m e B]; cbn; try discriminate Fx; split; try reflexivity; try discriminate. intros E. exfalso. apply eq_0_F2R in E. destruct s; discriminate. }
  rewrite A, Rx. split; [|intros ->; apply round_0; apply valid_rnd_N]. intros E.
  destruct z as [z|f]; cbn [real] in *.
  - destruct (Z.eq_dec z 0) as [->|Hz]; [reflexivity|exfalso]. assert (L : (1 <= Rabs (nearest (IZR z)))%R).
    { unfold nearest. apply abs_round_ge_generic; [apply FLT_exp_valid; reflexivity|apply valid_rnd_N|apply (generic_format_bpow radix2 _ 0); cbn; unfold FLT_exp; lia|]. rewrite <- abs_IZR. apply IZR_le. lia. }
    rewrite E, Rabs_R0 in L. lra.
  - destruct H as [Hv Hf]. rewrite <- E. symmetry. apply round_generic; [apply valid_rnd_N|]. rewrite <- (B2SF_SF2B 53 1024 f Hv), SF2R_B2SF. apply (generic_format_B2R 53 1024).
Qed.
Lemma div_zero a b : doc_num b -> real b = 0%R -> math_div [VNum a; VNum b] = Err InvalidInput.
Proof. intros H E. cbn [math_div]. now rewrite (proj2 (nearest_zero b H) E). Qed.
Lemma div_ok a b : doc_num a -> doc_num b -> real b <> 0%R -> let r := nearest (nearest (real a) / nearest (real b)) in
  (fits r -> exists f, math_div [VNum a; VNum b] = Ok (VNum (NFloat f)) /\ doc_num (NFloat f) /\ SF2R radix2 f = r) /\ (~ fits r -> math_div [VNum a; VNum b] = Panic).
Proof.
  intros Ha Hb Hz. assert (Z0 : is_zero (as_f64 b) = false). { destruct (is_zero (as_f64 b)) eqn:E; [|reflexivity]. apply (nearest_zero b Hb) in E. contradiction. }
  assert (M : math_div [VNum a; VNum b] = arith (SFdiv 53 1024) [VNum a; VNum b]) by (cbn [math_div]; now rewrite Z0). rewrite M.
  assert (N : nearest (real b) <> 0%R).
  { destruct (as_f64_ok b Hb) as (x & Ex & Fx & Rx). rewrite <- Rx. rewrite Ex in Z0. destruct x as [s| | |s m e B]; cbn in *; try discriminate. intros E. apply eq_0_F2R in E. destruct s; discriminate. }
  apply (arith_ok (SFdiv 53 1024) Rdiv (Bdiv mode_NE)); [exact div_equiv| |exact Ha|exact Hb]. intros x y Fx Fy Ry. pose proof (Bdiv_correct 53 1024 prec53 prec53_emax mode_NE x y) as C. rewrite nearest_NE in C.
  rewrite Ry in C. specialize (C N). rewrite <- Ry in C. destruct (Rlt_bool _ _); [|eauto]. destruct C as (C1 & C2 & _). rewrite Fx in C2. split; [exact C1|exact C2].
Qed.
Lemma nearest_int z : (- 2 ^ 53 <= z <= 2 ^ 53)%Z -> nearest (IZR z) = IZR z.
Proof.
  intros H. apply round_generic; [apply valid_rnd_N|]. destruct (Z.eq_dec (Z.abs z) (2 ^ 53)) as [E|Hne].
  - assert (G : generic_format radix2 (FLT_exp (-1074) 53) (IZR (2 ^ 53))) by (change (IZR (2 ^ 53)) with (bpow radix2 53); apply generic_format_bpow; cbn; unfold FLT_exp; lia).
    destruct (Z.abs_eq_or_opp z) as [E'|E']; [replace z with (2 ^ 53)%Z by lia; exact G|]. replace z with (- 2 ^ 53)%Z by lia. rewrite opp_IZR. now apply generic_format_opp.
  - apply generic_format_FLT. exists (Float radix2 z 0); cbn; [unfold F2R; cbn; lra|lia|lia].
Qed.
