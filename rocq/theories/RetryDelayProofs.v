(** The delay before a retry (C17). *)
From Coq Require Import ZArith Reals Lra Lia Psatz.
From Flocq Require Import Core.Core IEEE754.BinarySingleNaN.
From Verif Require Import Base Json WfTypes RetryDelayModel.
Open Scope Z_scope.

Local Instance prec53 : Prec_gt_0 53 := eq_refl.
Local Instance prec53_emax : Prec_lt_emax 53 1024 := eq_refl.
Notation fexp64 := (FLT_exp (-1074) 53).
Notation rnd := (round radix2 fexp64 ZnearestE).
Local Instance vexp : Valid_exp fexp64 := FLT_exp_valid (-1074) 53.

Lemma int_format z : Z.abs z <= 2 ^ 53 -> generic_format radix2 fexp64 (IZR z).
Proof.
  intros H. destruct (Z.eq_dec (Z.abs z) (2 ^ 53)) as [E|E].
  - destruct (Z.abs_eq_or_opp z) as [Ez|Ez]; rewrite Ez in E.
    + subst z. change (IZR (2 ^ 53)) with (bpow radix2 53). apply generic_format_bpow. unfold FLT_exp. cbn. lia.
    + replace z with (- (2 ^ 53)) by lia. rewrite opp_IZR. apply generic_format_opp.
      change (IZR (2 ^ 53)) with (bpow radix2 53). apply generic_format_bpow. unfold FLT_exp. cbn. lia.
  - apply generic_format_FLT. exists (Float radix2 z 0).
    + unfold F2R. cbn. lra.
    + cbn. lia.
    + cbn. lia.
Qed.

Lemma rnd_int z : Z.abs z <= 2 ^ 53 -> rnd (IZR z) = IZR z.
Proof. intros H. apply round_generic; [apply valid_rnd_N|]. now apply int_format. Qed.

Lemma small_lt_emax z : Z.abs z <= 2 ^ 64 -> (Rabs (IZR z) < bpow radix2 1024)%R.
Proof.
  intros H. rewrite <- abs_IZR. apply Rle_lt_trans with (IZR (2 ^ 64)); [now apply IZR_le|].
  change (IZR (2 ^ 64)) with (bpow radix2 64). apply bpow_lt. lia.
Qed.

Lemma f64_of_Z_exact z : Z.abs z <= 2 ^ 53 -> B2R (f64_of_Z z) = IZR z /\ is_finite (f64_of_Z z) = true.
Proof.
  intros H. pose proof (binary_normalize_correct 53 1024 _ _ mode_NE z 0 false) as C. cbn zeta in C.
  assert (F : F2R (Float radix2 z 0) = IZR z) by (unfold F2R; cbn; lra).
  rewrite F in C. change (round radix2 (SpecFloat.fexp 53 1024) (round_mode mode_NE) (IZR z)) with (rnd (IZR z)) in C.
  rewrite rnd_int in C by assumption. rewrite Rlt_bool_true in C by (apply small_lt_emax; lia).
  split; apply C.
Qed.

(** Rounding stays between neighbouring integers up to 2^53. *)
Lemma rnd_bounds x : (0 <= x)%R -> (x <= IZR (2 ^ 53))%R ->
  (IZR (Zfloor x) <= rnd x)%R /\ (rnd x <= IZR (Zceil x))%R.
Proof.
  intros H0 H1.
  assert (F0 : 0 <= Zfloor x) by (rewrite <- (Zfloor_IZR 0); apply Zfloor_le; exact H0).
  assert (F1 : Zfloor x <= 2 ^ 53) by (apply le_IZR; eapply Rle_trans; [apply Zfloor_lb|exact H1]).
  assert (C1 : Zceil x <= 2 ^ 53) by (rewrite <- (Zceil_IZR (2 ^ 53)); apply Zceil_le; exact H1).
  assert (C0 : 0 <= Zceil x) by (rewrite <- (Zceil_IZR 0); apply Zceil_le; exact H0).
  split.
  - rewrite <- (rnd_int (Zfloor x)) by lia. apply round_le; [apply vexp|apply valid_rnd_N|apply Zfloor_lb].
  - rewrite <- (rnd_int (Zceil x)) by lia. apply round_le; [apply vexp|apply valid_rnd_N|apply Zceil_ub].
Qed.

Lemma mult_small x y : is_finite x = true -> is_finite y = true ->
  (0 <= B2R x * B2R y <= IZR (2 ^ 53))%R ->
  B2R (f64_mult x y) = rnd (B2R x * B2R y) /\ is_finite (f64_mult x y) = true.
Proof.
  intros Fx Fy [H0 H1]. pose proof (Bmult_correct 53 1024 _ _ mode_NE x y) as C.
  change (round radix2 (SpecFloat.fexp 53 1024) (round_mode mode_NE) (B2R x * B2R y)) with (rnd (B2R x * B2R y)) in C.
  destruct (rnd_bounds _ H0 H1) as [A B].
  rewrite Rlt_bool_true in C.
  - rewrite Fx, Fy in C. split; apply C.
  - apply Rle_lt_trans with (IZR (2 ^ 53)).
    + rewrite Rabs_pos_eq.
      * rewrite <- (rnd_int (2 ^ 53)) by lia. apply round_le; [apply vexp|apply valid_rnd_N|exact H1].
      * rewrite <- (rnd_int 0) by lia. apply round_le; [apply vexp|apply valid_rnd_N|exact H0].
    + change (IZR (2 ^ 53)) with (bpow radix2 53). apply bpow_lt. lia.
Qed.

Lemma trunc_val x : IZR (Btrunc x) = IZR (Ztrunc (B2R (prec := 53) (emax := 1024) x)).
Proof. rewrite (Btrunc_correct 53 1024 _). unfold round, scaled_mantissa, F2R. cbn. rewrite !Rmult_1_r. reflexivity. Qed.

Lemma as_u64_finite x : is_finite x = true -> (0 <= B2R x <= IZR (2 ^ 53))%R -> f64_as_u64 x = Zfloor (B2R x).
Proof.
  intros F [H0 H1]. pose proof (trunc_val x) as E. apply eq_IZR in E. rewrite Ztrunc_floor in E by exact H0.
  assert (F0 : 0 <= Zfloor (B2R x)) by (rewrite <- (Zfloor_IZR 0); apply Zfloor_le; exact H0).
  assert (F1 : Zfloor (B2R x) <= 2 ^ 53) by (apply le_IZR; eapply Rle_trans; [apply Zfloor_lb|exact H1]).
  assert (f64_as_u64 x = Z.max 0 (Z.min (Btrunc x) u64_max)) as ->.
  { destruct x; try discriminate; reflexivity. }
  rewrite E. unfold u64_max. lia.
Qed.

Lemma as_u64_range x : 0 <= f64_as_u64 x <= u64_max.
Proof. unfold f64_as_u64, u64_max. destruct x as [s|[]| |]; lia. Qed.

(** The cast is monotone below a finite non-negative bound. *)
Lemma as_u64_le x c : is_finite c = true -> (0 <= B2R c <= IZR (2 ^ 53))%R ->
  x = B754_nan \/ Bltb c x = false -> f64_as_u64 x <= Zfloor (B2R c).
Proof.
  intros Fc Hc H.
  assert (F0 : 0 <= Zfloor (B2R c)) by (rewrite <- (Zfloor_IZR 0); apply Zfloor_le; apply Hc).
  destruct H as [-> | H]; [exact F0|].
  destruct (is_finite x) eqn:Fx.
  - rewrite Bltb_correct in H by assumption.
    assert (Hle : (B2R x <= B2R c)%R) by (destruct (Rlt_bool_spec (B2R c) (B2R x)); [discriminate|assumption]).
    destruct (Rle_lt_dec 0 (B2R x)) as [H0|H0].
    + rewrite as_u64_finite; [|assumption|lra]. now apply Zfloor_le.
    + assert (f64_as_u64 x = Z.max 0 (Z.min (Btrunc x) u64_max)) as ->.
      { destruct x; try discriminate; reflexivity. }
      pose proof (trunc_val x) as E. apply eq_IZR in E.
      assert (Ztrunc (B2R x) <= 0). { rewrite Ztrunc_ceil by lra. rewrite <- (Zceil_IZR 0). apply Zceil_le. lra. }
      lia.
  - destruct x as [s|[]| |]; try discriminate; [exact F0| |exact F0].
    destruct c as [s|s| |s m e B]; cbn in H, Fc; try discriminate; destruct s; discriminate.
Qed.

Lemma min_le x c : is_finite c = true -> f64_min x c = B754_nan \/ Bltb c (f64_min x c) = false.
Proof.
  intros Fc. right. unfold f64_min.
  assert (Bltb c c = false) by (rewrite Bltb_correct by assumption; apply Rlt_bool_false; lra).
  destruct (is_nan x) eqn:Nx; [assumption|].
  replace (is_nan c) with false by (now destruct c).
  destruct (Bltb x c) eqn:L; [|assumption].
  destruct (is_finite x) eqn:Fx.
  - rewrite Bltb_correct in * by assumption. apply Rlt_bool_false.
    destruct (Rlt_bool_spec (B2R x) (B2R c)); [lra|discriminate].
  - destruct x as [s|[]| |]; try discriminate; destruct c as [s'|s'| |s' m e B]; cbn in *; try discriminate; try destruct s'; try reflexivity; try discriminate.
Qed.

Lemma cap_exact m : 0 <= m -> m * 1000 <= 2 ^ 53 ->
  B2R (f64_mult (f64_of_Z m) f64_1000) = IZR (m * 1000) /\ is_finite (f64_mult (f64_of_Z m) f64_1000) = true.
Proof.
  intros H0 H1. destruct (f64_of_Z_exact m) as [A1 A2]; [lia|]. destruct (f64_of_Z_exact 1000) as [B1 B2]; [lia|].
  unfold f64_1000.
  destruct (mult_small (f64_of_Z m) (f64_of_Z 1000) A2 B2) as [C1 C2].
  - rewrite A1, B1, <- mult_IZR. split; [apply IZR_le; lia|now apply IZR_le].
  - split; [|exact C2]. rewrite C1, A1, B1, <- mult_IZR. apply rnd_int. lia.
Qed.

(** A draw from the range [0, x). *)
Definition draws (draw : f64 -> f64) : Prop :=
  forall x, is_finite x = true -> (0 < B2R x)%R ->
    is_finite (draw x) = true /\ (0 <= B2R (draw x) < B2R x)%R.

Section Delay.
  Variable powf : f64 -> f64 -> f64.
  Variable draw : f64 -> f64.
  Hypothesis Hdraw : draws draw.
  Notation DELAY := (calculate_retry_wait_time_ms powf draw).

  Lemma pos_spec (x : f64) : Bltb (B754_zero false) x && is_finite x = true -> is_finite x = true /\ (0 < B2R x)%R.
  Proof.
    intros H. apply andb_prop in H. destruct H as [H1 H2]. split; [exact H2|].
    rewrite Bltb_correct in H1 by (assumption || reflexivity).
    match type of H1 with Rlt_bool ?a ?b = _ => destruct (Rlt_bool_spec a b) as [H|H]; [exact H|discriminate] end.
  Qed.

  Lemma delay_capped r k di dr m d : rt_max_delay r = Some m -> 0 <= m -> m * 1000 <= 2 ^ 53 ->
    DELAY r k di dr = Ok d -> 0 <= d <= m * 1000.
  Proof.
    intros Hm H0 H1 H. unfold calculate_retry_wait_time_ms in H.
    destruct (in_i64 _); [|discriminate]. rewrite Hm in H.
    destruct (cap_exact m H0 H1) as [C1 C2].
    match type of H with context [f64_min ?a ?b] => set (x := f64_min a b) in * end.
    pose proof (min_le (f64_mult (f64_of_Z (match rt_interval r with Some i => i | None => di end * 1000))
        (powf match rt_backoff_rate r with Some x => f64_of_sf x | None => dr end (f64_of_Z k)))
       (f64_mult (f64_of_Z m) f64_1000) C2) as L. fold x in L.
    assert (LE : f64_as_u64 x <= m * 1000).
    { pose proof (as_u64_le x _ C2) as A. rewrite C1 in A. rewrite Zfloor_IZR in A. apply A; [|exact L].
      split; apply IZR_le; lia. }
    pose proof (as_u64_range x).
    destruct (match rt_jitter r with Some j => j | None => false end).
    - destruct (Bltb _ x && is_finite x)%bool eqn:P; [|discriminate]. inversion H; subst d.
      apply pos_spec in P. destruct P as [P1 P2]. destruct (Hdraw x P1 P2) as [D1 D2].
      split; [apply as_u64_range|].
      assert (B2R x <= IZR (m * 1000))%R.
      { destruct L as [L|L]; [rewrite L in P1; discriminate|]. rewrite Bltb_correct, C1 in L by assumption.
        destruct (Rlt_bool_spec (IZR (m * 1000)) (B2R x)); [discriminate|assumption]. }
      rewrite as_u64_finite; [|exact D1|].
      + apply le_IZR. eapply Rle_trans; [apply Zfloor_lb|]. lra.
      + assert (IZR (m * 1000) <= IZR (2 ^ 53))%R by (apply IZR_le; lia). lra.
    - inversion H; subst. lia.
  Qed.

  (** The formula: up to 2^53 milliseconds the delay is interval * 1000 * rate^k,
      capped, to the millisecond. *)
  Definition ideal (i : Z) (p : R) (cap : option Z) : R :=
    let x := (IZR (i * 1000) * p)%R in
    match cap with None => x | Some m => Rmin x (IZR (m * 1000)) end.

  Lemma delay_formula r k di dr i p d :
    i = match rt_interval r with Some i => i | None => di end ->
    p = powf match rt_backoff_rate r with Some x => f64_of_sf x | None => dr end (f64_of_Z k) ->
    is_finite p = true -> 0 <= i -> (0 <= B2R p)%R -> (IZR (i * 1000) * B2R p <= IZR (2 ^ 53))%R ->
    i * 1000 <= 2 ^ 53 ->
    (forall m, rt_max_delay r = Some m -> 0 <= m /\ m * 1000 <= 2 ^ 53) ->
    DELAY r k di dr = Ok d ->
    let y := ideal i (B2R p) (rt_max_delay r) in
    (rt_jitter r <> Some true -> Zfloor y <= d <= Zceil y) /\ 0 <= d <= Zceil y.
  Proof.
    intros Ei Ep Fp Hi Hp Hb Hi2 Hm H y. unfold calculate_retry_wait_time_ms in H. rewrite <- Ei, <- Ep in H.
    destruct (in_i64 (i * 1000)); [|discriminate].
    destruct (f64_of_Z_exact (i * 1000)) as [A1 A2]; [lia|].
    assert (0 <= IZR (i * 1000))%R by (apply IZR_le; lia).
    assert (Hx : (0 <= B2R (f64_of_Z (i * 1000)) * B2R p <= IZR (2 ^ 53))%R).
    { rewrite A1. split; [now apply Rmult_le_pos|exact Hb]. }
    destruct (mult_small (f64_of_Z (i * 1000)) p A2 Fp Hx) as [M1 M2]. rewrite A1 in M1, Hx.
    destruct (rnd_bounds _ (proj1 Hx) (proj2 Hx)) as [R1 R2].
    set (x0 := f64_mult (f64_of_Z (i * 1000)) p) in *.
    set (x := match rt_max_delay r with Some m => f64_min x0 (f64_mult (f64_of_Z m) f64_1000) | None => x0 end) in H.
    assert (HX : is_finite x = true /\ (IZR (Zfloor y) <= B2R x <= IZR (Zceil y))%R /\ (0 <= B2R x <= IZR (2 ^ 53))%R).
    { unfold x, y, ideal. destruct (rt_max_delay r) as [m|].
      - destruct (Hm m eq_refl) as [G3 G4]. destruct (cap_exact m G3 G4) as [C1 C2].
        assert (is_finite (f64_min x0 (f64_mult (f64_of_Z m) f64_1000)) = true /\
                B2R (f64_min x0 (f64_mult (f64_of_Z m) f64_1000)) = Rmin (B2R x0) (IZR (m * 1000))) as [G1 G2].
        { unfold f64_min. replace (is_nan x0) with false by (now destruct x0).
          replace (is_nan (f64_mult (f64_of_Z m) f64_1000)) with false by (now destruct (f64_mult (f64_of_Z m) f64_1000)).
          rewrite Bltb_correct by assumption. rewrite C1. destruct (Rlt_bool_spec (B2R x0) (IZR (m * 1000))).
          - split; [assumption|]. rewrite Rmin_left; lra.
          - split; [assumption|]. rewrite Rmin_right; lra. }
        split; [exact G1|]. rewrite G2, M1.
        assert (Q1 : (IZR (m * 1000) <= IZR (2 ^ 53))%R) by (apply IZR_le; lia).
        assert (Q0 : (0 <= IZR (m * 1000))%R) by (apply IZR_le; lia).
        set (a := (IZR (i * 1000) * B2R p)%R) in *.
        split; [split|].
        + apply Rmin_glb.
          * eapply Rle_trans; [|exact R1]. apply IZR_le, Zfloor_le, Rmin_l.
          * eapply Rle_trans; [apply Zfloor_lb|]. apply Rmin_r.
        + unfold Rmin at 2. destruct (Rle_dec a (IZR (m * 1000))).
          * eapply Rle_trans; [apply Rmin_l|exact R2].
          * rewrite Zceil_IZR. apply Rmin_r.
        + split.
          * apply Rmin_glb; [|exact Q0]. eapply Rle_trans; [|exact R1]. apply IZR_le. rewrite <- (Zfloor_IZR 0). apply Zfloor_le. apply Hx.
          * eapply Rle_trans; [apply Rmin_r|exact Q1].
      - split; [exact M2|]. rewrite M1. split; [split; [exact R1|exact R2]|]. split.
        + eapply Rle_trans; [|exact R1]. apply IZR_le. rewrite <- (Zfloor_IZR 0). apply Zfloor_le. apply Hx.
        + rewrite <- (rnd_int (2 ^ 53)) by lia. apply round_le; [apply vexp|apply valid_rnd_N|apply Hx]. }
    destruct HX as (X1 & X2 & X3).
    assert (V : Zfloor y <= f64_as_u64 x <= Zceil y).
    { rewrite as_u64_finite by assumption. split.
      - rewrite <- (Zfloor_IZR (Zfloor y)). apply Zfloor_le. apply X2.
      - apply le_IZR. eapply Rle_trans; [apply Zfloor_lb|apply X2]. }
    destruct (rt_jitter r) as [[|]|] eqn:J.
    - destruct (Bltb _ x && is_finite x)%bool eqn:P; [|discriminate]. inversion H; subst d.
      split; [congruence|]. split; [apply as_u64_range|].
      apply pos_spec in P. destruct P as [P1 P2]. destruct (Hdraw x P1 P2) as [D1 D2].
      rewrite as_u64_finite; [|exact D1|lra]. apply le_IZR. eapply Rle_trans; [apply Zfloor_lb|]. lra.
    - inversion H; subst d. pose proof (as_u64_range x). split; [intros _; exact V|lia].
    - inversion H; subst d. pose proof (as_u64_range x). split; [intros _; exact V|lia].
  Qed.

  (** A zero interval or a cap that is not positive, with jitter: a crash. *)
  Lemma jitter_crash_cap r k di dr m : rt_jitter r = Some true -> rt_max_delay r = Some m -> m <= 0 -> - m * 1000 <= 2 ^ 53 ->
    DELAY r k di dr = Panic.
  Proof.
    intros J Hm H0 H1. unfold calculate_retry_wait_time_ms. destruct (in_i64 _); [|reflexivity]. rewrite J, Hm.
    match goal with |- context [f64_min ?a _] => set (x := a) end.
    destruct (f64_of_Z_exact m) as [A1 A2]; [lia|]. destruct (f64_of_Z_exact 1000) as [B1 B2]; [lia|].
    assert (C : is_finite (f64_mult (f64_of_Z m) f64_1000) = true /\ (B2R (f64_mult (f64_of_Z m) f64_1000) <= 0)%R).
    { unfold f64_1000. pose proof (Bmult_correct 53 1024 _ _ mode_NE (f64_of_Z m) (f64_of_Z 1000)) as C.
      change (round radix2 (SpecFloat.fexp 53 1024) (round_mode mode_NE) (B2R (f64_of_Z m) * B2R (f64_of_Z 1000)))
        with (rnd (B2R (f64_of_Z m) * B2R (f64_of_Z 1000))) in C.
      rewrite A1, B1, <- mult_IZR, rnd_int in C by lia.
      rewrite Rlt_bool_true in C by (apply small_lt_emax; lia). destruct C as (C1 & C2 & _).
      rewrite A2, B2 in C2. split; [exact C2|].
      assert (E : B2R (f64_mult (f64_of_Z m) (f64_of_Z 1000)) = IZR (m * 1000)) by exact C1.
      rewrite E. apply IZR_le. lia. }
    destruct C as [C1 C2].
    destruct (Bltb (B754_zero false) (f64_min x (f64_mult (f64_of_Z m) f64_1000)) && is_finite (f64_min x (f64_mult (f64_of_Z m) f64_1000)))%bool eqn:P; [|reflexivity].
    exfalso. apply pos_spec in P. destruct P as [P1 P2].
    destruct (min_le x _ C1) as [N|N]; [rewrite N in P1; discriminate|].
    rewrite Bltb_correct in N by assumption.
    match type of N with Rlt_bool ?a ?b = _ => destruct (Rlt_bool_spec a b) as [Q|Q]; [discriminate|lra] end.
  Qed.

  Lemma jitter_crash_interval r k di dr : rt_jitter r = Some true ->
    match rt_interval r with Some i => i | None => di end = 0 -> rt_max_delay r = None ->
    DELAY r k di dr = Panic.
  Proof.
    intros J Hi Hm. unfold calculate_retry_wait_time_ms. rewrite Hi, J, Hm. cbn [Z.mul in_i64].
    destruct (in_i64 0); [|reflexivity].
    match goal with |- context [f64_mult ?a ?b] => generalize b end. intros p.
    destruct p as [[]|[]| |[]]; reflexivity.
  Qed.
End Delay.
