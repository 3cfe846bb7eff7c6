(** The time a wait state waits (C60). *)
From Coq Require Import DecimalString DecimalN DecimalPos DecimalFacts DecimalNat.
From Verif Require Import Base Json WfTypes WaitModel WaitSpec.
Open Scope string_scope.
Open Scope N_scope.

Fixpoint val (d : Decimal.uint) (acc : N) : N :=
  match d with
  | Decimal.Nil => acc
  | Decimal.D0 l => val l (10 * acc)
  | Decimal.D1 l => val l (10 * acc + 1)
  | Decimal.D2 l => val l (10 * acc + 2)
  | Decimal.D3 l => val l (10 * acc + 3)
  | Decimal.D4 l => val l (10 * acc + 4)
  | Decimal.D5 l => val l (10 * acc + 5)
  | Decimal.D6 l => val l (10 * acc + 6)
  | Decimal.D7 l => val l (10 * acc + 7)
  | Decimal.D8 l => val l (10 * acc + 8)
  | Decimal.D9 l => val l (10 * acc + 9)
  end.

Lemma digits_val d : forall acc, digits_of (NilEmpty.string_of_uint d) acc = Some (val d acc).
Proof.
  induction d; intros acc; cbn [NilEmpty.string_of_uint digits_of val]; [reflexivity|..].
  all: match goal with |- context [digit_of ?c] => let v := eval compute in (digit_of c) in change (digit_of c) with v end.
  all: cbn iota; rewrite ?N.add_0_r; apply IHd.
Qed.

Lemma val_acc d : forall p, val d (Npos p) = Npos (Pos.of_uint_acc d p).
Proof. induction d; intros p; cbn -[N.mul N.add Pos.mul Pos.add]; try reflexivity; rewrite <- IHd; f_equal; lia. Qed.

Lemma val_of_uint d : val d 0 = N.of_uint d.
Proof.
  unfold N.of_uint. induction d; cbn -[N.mul N.add Pos.of_uint_acc]; try reflexivity; auto.
  all: match goal with |- val ?d ?n = _ => change n with (Npos (match n with Npos p => p | N0 => xH end)) end; apply val_acc.
Qed.

Lemma parse_decimal n : n <= u64_limit -> parse_u64 (NilZero.string_of_uint (N.to_uint n)) = Some n.
Proof.
  intros H. assert (E : NilZero.string_of_uint (N.to_uint n) = NilEmpty.string_of_uint (N.to_uint n)).
  { unfold NilZero.string_of_uint. destruct (N.to_uint n) eqn:En; try reflexivity.
    exfalso. destruct n as [|p]; cbn in En; [discriminate|].
    pose proof (DecimalPos.Unsigned.to_uint_nonnil p). congruence. }
  rewrite E.
  assert (D : digits_of (NilEmpty.string_of_uint (N.to_uint n)) 0 = Some n).
  { rewrite digits_val, val_of_uint. f_equal. apply DecimalN.Unsigned.of_to. }
  assert (Hne : N.to_uint n <> Decimal.Nil).
  { destruct n as [|p]; cbn; [discriminate|]. apply DecimalPos.Unsigned.to_uint_nonnil. }
  apply N.leb_le in H.
  destruct (N.to_uint n); try congruence; cbn [NilEmpty.string_of_uint] in *; unfold parse_u64; rewrite D, H; reflexivity.
Qed.

(** Only an optional sign and digits are accepted. *)
Lemma digits_only s : forall acc n, digits_of s acc = Some n -> all_digits s.
Proof.
  induction s as [|c s IH]; cbn; intros acc n H; [exact I|].
  destruct (digit_of c) as [d|] eqn:E; [|discriminate]. split; [|eauto].
  unfold digit_of in E. destruct (48 <=? N_of_ascii c) eqn:A, (N_of_ascii c <=? 57) eqn:B; cbn in E; try discriminate.
  apply N.leb_le in A. apply N.leb_le in B. lia.
Qed.
Lemma parse_accepts s n : parse_u64 s = Some n ->
  n <= u64_limit /\ exists body, (s = body \/ s = String "+" body) /\ body <> "" /\ all_digits body.
Proof.
  unfold parse_u64. set (b := match s with String "+" r => r | _ => s end).
  assert (Hb : s = b \/ s = String "+" b).
  { unfold b. destruct s as [|c r]; [left; reflexivity|]. destruct c as [[] [] [] [] [] [] [] []]; auto. }
  intros H. destruct b as [|c r] eqn:Eb; [discriminate|].
  destruct (digits_of (String c r) 0) as [m|] eqn:D; [|discriminate].
  destruct (m <=? u64_limit) eqn:L; [|discriminate]. inversion H; subst. apply N.leb_le in L.
  split; [exact L|]. exists (String c r). split; [exact Hb|]. split; [discriminate|]. eapply digits_only; eauto.
Qed.

Section Wait.
  Variable path_error : string -> option string.
  Variable path_find : string -> json -> json.
  Variable parse_timestamp : string -> Z + string.
  Notation WAIT := (derive_wait_time_seconds path_error path_find parse_timestamp).

  Lemma wait_literal n ts input now : n <= u64_limit ->
    WAIT {| wt_seconds := Some (NilZero.string_of_uint (N.to_uint n)); wt_timestamp := ts |} input now = inl n.
  Proof.
    intros H. unfold derive_wait_time_seconds. cbn [wt_seconds]. unfold derive_wait_time_from_seconds_field.
    assert (starts_with_dollar (NilZero.string_of_uint (N.to_uint n)) = false) as ->.
    { unfold NilZero.string_of_uint. destruct (N.to_uint n); reflexivity. }
    now rewrite parse_decimal.
  Qed.

  Lemma wait_literal_only s ts input now n :
    WAIT {| wt_seconds := Some s; wt_timestamp := ts |} input now = inl n -> starts_with_dollar s = false ->
    n <= u64_limit /\ exists body, (s = body \/ s = String "+" body) /\ body <> "" /\ all_digits body.
  Proof.
    intros H Hs. unfold derive_wait_time_seconds, derive_wait_time_from_seconds_field in H. cbn in H. rewrite Hs in H.
    apply parse_accepts. destruct (parse_u64 s); congruence.
  Qed.

  (** A timestamp: waiting the returned number of seconds ends within the last
      second before it (or at most at once when it is less than a second ago). *)
  Lemma wait_timestamp s ts input now n :
    starts_with_dollar s = false -> parse_timestamp s = inl ts ->
    WAIT {| wt_seconds := None; wt_timestamp := Some s |} input now = inl n ->
    (now * 1000000 - 1000000000 < ts)%Z /\
    (now * 1000000 <= ts -> now * 1000000 + Z.of_N n * 1000000000 <= ts < now * 1000000 + (Z.of_N n + 1) * 1000000000)%Z.
  Proof.
    intros Hs Ht H. unfold derive_wait_time_seconds, derive_wait_time_from_timestamp_field, wait_time_from_timestamp in H.
    cbn in H. rewrite Hs, Ht in H.
    destruct (Z.quot (ts - now * 1000000) 1000000000 <? 0)%Z eqn:L; [discriminate|]. inversion H; subst n. clear H.
    apply Z.ltb_ge in L.
    pose proof (Z.quot_rem' (ts - now * 1000000) 1000000000) as Q.
    split.
    - destruct (Z_lt_le_dec (ts - now * 1000000) 0) as [A|A]; [|lia].
      pose proof (Z.rem_nonpos (ts - now * 1000000) 1000000000 ltac:(lia) ltac:(lia)).
      pose proof (Z.rem_bound_abs (ts - now * 1000000) 1000000000 ltac:(lia)). lia.
    - intros A. rewrite Z2N.id by assumption.
      pose proof (Z.rem_bound_pos (ts - now * 1000000) 1000000000 ltac:(lia) ltac:(lia)). lia.
  Qed.
  Lemma wait_future s ts input now :
    starts_with_dollar s = false -> parse_timestamp s = inl ts -> (now * 1000000 <= ts)%Z ->
    exists n, WAIT {| wt_seconds := None; wt_timestamp := Some s |} input now = inl n.
  Proof.
    intros Hs Ht H. unfold derive_wait_time_seconds, derive_wait_time_from_timestamp_field, wait_time_from_timestamp.
    cbn. rewrite Hs, Ht.
    assert (0 <= Z.quot (ts - now * 1000000) 1000000000)%Z by (apply Z.quot_pos; lia).
    destruct (Z.quot (ts - now * 1000000) 1000000000 <? 0)%Z eqn:L; [apply Z.ltb_lt in L; lia|]. eauto.
  Qed.
  Lemma wait_past s ts input now :
    starts_with_dollar s = false -> parse_timestamp s = inl ts -> (ts <= now * 1000000 - 1000000000)%Z ->
    exists e, WAIT {| wt_seconds := None; wt_timestamp := Some s |} input now = inr e.
  Proof.
    intros Hs Ht H. destruct (WAIT {| wt_seconds := None; wt_timestamp := Some s |} input now) as [n|e] eqn:E; [|eauto].
    destruct (wait_timestamp s ts input now n Hs Ht E). lia.
  Qed.

  (** [find] wraps what it finds in a list, or answers null. *)
  Definition find_wraps : Prop := forall p v, path_find p v = JNull \/ exists l, path_find p v = JArr l.

  Lemma wait_path_fails w input now s : find_wraps ->
    (wt_seconds w = Some s \/ wt_seconds w = None /\ wt_timestamp w = Some s) -> starts_with_dollar s = true ->
    exists e, WAIT w input now = inr e.
  Proof.
    intros F H Hs. unfold derive_wait_time_seconds.
    destruct H as [-> | [-> ->]].
    - unfold derive_wait_time_from_seconds_field. rewrite Hs. destruct (path_error s); [eauto|].
      destruct (F s input) as [-> | (l & ->)]; eauto.
    - unfold derive_wait_time_from_timestamp_field. rewrite Hs. destruct (path_error s); [eauto|].
      destruct (F s input) as [-> | (l & ->)]; eauto.
  Qed.

  Lemma dollar_path s : starts_with_dollar s = true <-> is_path s.
  Proof.
    unfold starts_with_dollar, is_path. split; [|intros (r & ->); reflexivity].
    destruct s as [|c s]; [discriminate|]. destruct c as [[] [] [] [] [] [] [] []]; try discriminate. eauto.
  Qed.
  Lemma digit_of_ok c d : digit_of c = Some d <-> d <= 9 /\ N_of_ascii c = 48 + d.
  Proof.
    unfold digit_of. destruct (N.leb_spec 48 (N_of_ascii c)), (N.leb_spec (N_of_ascii c) 57); cbn [andb]; split; try discriminate; try lia.
    - intros [= <-]. lia.
    - intros [L E]. f_equal. lia.
  Qed.
  Lemma append_last s c r : (s ++ String c "") ++ r = s ++ String c r.
  Proof. induction s as [|a s IH]; cbn; congruence. Qed.
  Lemma digits_from s : forall p v n, decimal p v -> digits_of s v = Some n -> decimal (p ++ s) n.
  Proof.
    induction s as [|c s IH]; intros p v n P H; cbn in H.
    - injection H as <-. assert (E : p ++ "" = p) by (clear; induction p; cbn; congruence). now rewrite E.
    - destruct (digit_of c) as [d|] eqn:E; [|discriminate]. apply digit_of_ok in E. destruct E as [L E]. rewrite <- append_last. eapply IH; [|exact H]. now constructor.
  Qed.
  Lemma digits_app a b : forall v, digits_of (a ++ b) v = match digits_of a v with Some n => digits_of b n | None => None end.
  Proof. induction a as [|c a IH]; intros v; cbn; [reflexivity|]. destruct (digit_of c); auto. Qed.
  Lemma digits_decimal s n : digits_of s 0 = Some n <-> decimal s n.
  Proof.
    split; [intros H; exact (digits_from s "" 0 n dec_none H)|]. induction 1 as [|s n c d _ IH L E]; [reflexivity|].
    rewrite digits_app, IH. cbn [digits_of]. now rewrite (proj2 (digit_of_ok c d) (conj L E)).
  Qed.
  Lemma plus_case s : (exists b, s = String "+" b) \/ (forall b, s <> String "+" b) /\ match s with String "+" r => r | _ => s end = s.
  Proof. destruct s as [|c s]; [right; split; [discriminate|reflexivity]|]. destruct c as [[] [] [] [] [] [] [] []]; first [left; eexists; reflexivity|right; split; [congruence|reflexivity]]. Qed.
  Lemma decimal_plus b n : ~ decimal (String "+" b) n.
  Proof. intros H. apply digits_decimal in H. discriminate. Qed.
  Lemma parse_written s n : parse_u64 s = Some n <-> written s n.
  Proof.
    assert (B : forall b, (match b with EmptyString => None | _ => match digits_of b 0 with Some n => if n <=? u64_limit then Some n else None | None => None end end) = Some n <-> n < 2 ^ 64 /\ b <> "" /\ decimal b n).
    { intros b. rewrite <- digits_decimal. destruct b as [|c b]; [split; [discriminate|now intros (_ & X & _)]|].
      destruct (digits_of (String c b) 0) as [m|]; [|split; [discriminate|now intros (_ & _ & X)]].
      destruct (N.leb_spec m u64_limit) as [L|L]; unfold u64_limit in L; split; [intros [= <-]; split; [lia|now split]|now intros (_ & _ & X)|discriminate|intros (L' & _ & [= <-]); exfalso; lia]. }
    unfold parse_u64, written. destruct (plus_case s) as [(b & ->)|(N & E)].
    - rewrite B. split; [intros (L & Hn & D); split; [exact L|exists b; auto]|]. intros (L & b' & [E|E] & Hn & D); [subst b'; now apply decimal_plus in D|]. injection E as <-. auto.
    - rewrite E, B. split; [intros (L & Hn & D); split; [exact L|exists s; auto]|]. intros (L & b' & [Eb|Eb] & Hn & D); [subst b'; auto|now apply N in Eb].
  Qed.
  Notation UNTIL := (until parse_timestamp).
  Lemma until_ok s now r : wait_time_from_timestamp parse_timestamp s now = r <-> UNTIL now s r.
  Proof.
    unfold wait_time_from_timestamp. destruct (parse_timestamp s) as [ts|e] eqn:P.
    - pose proof (Z.quot_rem' (ts - now * 1000000) 1000000000) as Q.
      assert (A : (0 <= ts - now * 1000000 -> 0 <= Z.rem (ts - now * 1000000) 1000000000 < 1000000000)%Z) by (intros; apply Z.rem_bound_pos; lia).
      assert (B : (ts - now * 1000000 <= 0 -> -1000000000 < Z.rem (ts - now * 1000000) 1000000000 <= 0)%Z).
      { intros H. pose proof (Z.rem_nonpos (ts - now * 1000000) 1000000000 ltac:(lia) ltac:(lia)). pose proof (Z.rem_bound_abs (ts - now * 1000000) 1000000000 ltac:(lia)). lia. }
      set (q := Z.quot (ts - now * 1000000) 1000000000) in *. destruct (Z.ltb_spec q 0) as [L|L]; split.
      + intros <-. eapply u_past; [exact P|]. lia.
      + intros U. inversion U; subst; rewrite P in *; try discriminate; injection H as <-; [reflexivity|exfalso; lia|exfalso; lia].
      + intros <-. destruct (Z_lt_le_dec (ts - now * 1000000) 0) as [Hn|Hp].
        * assert (q = 0%Z) as -> by lia. eapply u_recent; [exact P|lia].
        * eapply u_future; [exact P|]. rewrite Z2N.id by exact L. lia.
      + intros U. inversion U; subst; rewrite P in *; try discriminate; injection H as <-; [exfalso; lia|assert (q = 0%Z) as -> by lia; reflexivity|]. f_equal. lia.
    - split; [intros <-; now constructor|]. intros U. inversion U; subst; rewrite P in *; try discriminate. now injection H as <-.
  Qed.
  Lemma wait_exact w input now r : WAIT w input now = r <-> waits path_error path_find parse_timestamp input now w r.
  Proof.
    assert (Dec : forall s, is_path s \/ ~ is_path s) by (intros s; destruct (starts_with_dollar s) eqn:E; [left; now apply dollar_path|right; intros X; apply dollar_path in X; congruence]).
    assert (P1 : forall s, is_path s -> starts_with_dollar s = true) by (intros; now apply dollar_path).
    assert (P0 : forall s, ~ is_path s -> starts_with_dollar s = false) by (intros s H; destruct (starts_with_dollar s) eqn:E; [elim H; now apply dollar_path|reflexivity]).
    assert (D : forall r', waits path_error path_find parse_timestamp input now w r' -> WAIT w input now = r').
    { intros r' H. destruct H as [s ts n A B|s ts A B|s ts e A B|s ts n A B C L|s ts A B C|s r' A B|s e A B|s t r' A B C L|s A B C|]; unfold derive_wait_time_seconds; cbn [wt_seconds wt_timestamp];
        unfold derive_wait_time_from_seconds_field, derive_wait_time_from_timestamp_field; try (rewrite (P0 _ A)); try (rewrite (P1 _ A), B).
      - now rewrite (proj2 (parse_written _ _) B).
      - destruct (parse_u64 s) as [n|] eqn:E; [|reflexivity]. apply parse_written in E. elim (B _ E).
      - reflexivity.
      - rewrite C. destruct (Z.leb_spec 0 (Z.of_N n)); [|lia]. destruct (Z.leb_spec (Z.of_N n) (Z.of_N u64_limit)); [|unfold u64_limit in *; lia]. cbn. now rewrite N2Z.id.
      - destruct (path_find s input) as [| |[z|t]| | |]; try reflexivity. destruct (Z.leb_spec 0 z); [|reflexivity]. destruct (Z.leb_spec z (Z.of_N u64_limit)); [|reflexivity].
        elim (C (Z.to_N z)); [unfold u64_limit in *; lia|]. now rewrite Z2N.id.
      - now apply until_ok.
      - reflexivity.
      - rewrite C. now apply until_ok.
      - destruct (path_find s input) as [| | |t| |]; try reflexivity. now elim (C t).
      - reflexivity. }
    split; [|apply D]. intros <-.
    enough (exists r', waits path_error path_find parse_timestamp input now w r') as (r' & W) by (rewrite (D _ W); exact W).
    destruct w as [[s|] t].
    - destruct (Dec s) as [Ds|Ds].
      + destruct (path_error s) as [e|] eqn:Ep; [eexists; eapply w_path_bad; eassumption|].
        assert (X : (exists n, n < 2 ^ 64 /\ path_find s input = JNum (NInt (Z.of_N n))) \/ forall n, n < 2 ^ 64 -> path_find s input <> JNum (NInt (Z.of_N n))).
        { destruct (path_find s input) as [| |[z|q]| | |]; try (right; intros; discriminate). destruct (Z_lt_le_dec z 0); [right; intros n _ [= E]; lia|]. destruct (Z_lt_le_dec z (2 ^ 64)).
          - left. exists (Z.to_N z). split; [lia|]. now rewrite Z2N.id.
          - right. intros n L [= E]. lia. }
        destruct X as [(n & L & X)|X]; [eexists; eapply w_path; eassumption|eexists; eapply w_path_other; eassumption].
      + destruct (parse_u64 s) as [n|] eqn:E; [eexists; eapply w_literal; [exact Ds|exact (proj1 (parse_written _ _) E)]|].
        eexists. apply w_literal_bad; [exact Ds|]. intros n W. apply parse_written in W. congruence.
    - destruct t as [s|]; [|eexists; constructor]. destruct (Dec s) as [Ds|Ds].
      + destruct (path_error s) as [e|] eqn:Ep; [eexists; eapply w_time_bad; eassumption|].
        assert (X : (exists t, path_find s input = JStr t) \/ forall t, path_find s input <> JStr t) by (destruct (path_find s input); eauto; right; discriminate).
        destruct X as [(t & X)|X]; [eexists; eapply w_time_path; [exact Ds|exact Ep|exact X|]; apply until_ok; reflexivity|eexists; eapply w_time_other; eassumption].
      + eexists. apply w_time; [exact Ds|]. apply until_ok; reflexivity.
  Qed.
  Lemma not_dollar s : ~ is_path s -> starts_with_dollar s = false.
  Proof. intros P. destruct (starts_with_dollar s) eqn:E; [elim P; now apply dollar_path|reflexivity]. Qed.
End Wait.
