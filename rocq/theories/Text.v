(** Byte-string helpers shared by several models: splitting, joining, ASCII
    case folding, trimming, decimal numbers.  They stand for Rust's [str]
    methods of the same purpose; where a method is Unicode-aware the using model
    says why bytes suffice. *)
From Verif Require Import Base.
Open Scope string_scope.

(** [str::split(c)] for a one-byte pattern; never returns an empty list. *)
Fixpoint split_on (c : ascii) (s : string) : list string :=
  match s with
  | EmptyString => [""]
  | String a s' =>
      if Ascii.eqb a c then "" :: split_on c s'
      else match split_on c s' with
           | [] => [String a ""]
           | p :: ps => String a p :: ps
           end
  end.

(** [slice::join] *)
Fixpoint join (sep : string) (l : list string) : string :=
  match l with
  | [] => ""
  | [x] => x
  | x :: l' => x ++ sep ++ join sep l'
  end.

(** [String::concat] / collecting an iterator of strings into a String *)
Fixpoint concat_all (l : list string) : string :=
  match l with [] => "" | x :: l' => x ++ concat_all l' end.

(** [u8::to_ascii_lowercase] *)
Definition ascii_lower (c : ascii) : ascii :=
  let n := N_of_ascii c in
  if (65 <=? n)%N && (n <=? 90)%N then ascii_of_N (n + 32) else c.

Fixpoint lower (s : string) : string :=
  match s with EmptyString => "" | String a s' => String (ascii_lower a) (lower s') end.

Fixpoint all_chars (p : ascii -> bool) (s : string) : bool :=
  match s with EmptyString => true | String a s' => p a && all_chars p s' end.

Definition has_char (c : ascii) (s : string) : bool := negb (all_chars (fun a => negb (Ascii.eqb a c)) s).

(** [trim_start] / [trim_end] / [trim] for the bytes satisfying [p] *)
Fixpoint trim_start (p : ascii -> bool) (s : string) : string :=
  match s with
  | EmptyString => ""
  | String a s' => if p a then trim_start p s' else s
  end.
Fixpoint trim_end (p : ascii -> bool) (s : string) : string :=
  match s with
  | EmptyString => ""
  | String a s' =>
      match trim_end p s' with
      | EmptyString => if p a then "" else String a ""
      | t => String a t
      end
  end.
Definition trim (p : ascii -> bool) (s : string) : string := trim_end p (trim_start p s).

Definition is_digit (c : ascii) : bool :=
  let n := N_of_ascii c in (48 <=? n)%N && (n <=? 57)%N.
Definition digit_val (c : ascii) : N := N_of_ascii c - 48.
Definition digit_chr (n : N) : ascii := ascii_of_N (n + 48).

(** Value of a digit string read from the left. *)
Fixpoint digits_val (acc : N) (s : string) : option N :=
  match s with
  | EmptyString => Some acc
  | String a s' => if is_digit a then digits_val (acc * 10 + digit_val a) s' else None
  end.

(** Decimal text of a number ([u64::to_string]). *)
Fixpoint dec_fuel (f : nat) (n : N) : string :=
  match f with
  | O => ""
  | S f' => (if (n <? 10)%N then "" else dec_fuel f' (n / 10)) ++ String (digit_chr (n mod 10)) ""
  end.
Definition dec (n : N) : string := dec_fuel (S (N.to_nat (N.log2 n))) n.

(** ** Facts *)

Lemma sapp_nil_r s : s ++ "" = s.
Proof. induction s; cbn; congruence. Qed.
Lemma sapp_assoc a b c : (a ++ b) ++ c = a ++ b ++ c.
Proof. induction a; cbn; congruence. Qed.
Lemma sapp_inv_head a b c : a ++ b = a ++ c -> b = c.
Proof. induction a; cbn; intros H; [exact H|inversion H; auto]. Qed.
Lemma sapp_length a b : String.length (a ++ b) = String.length a + String.length b.
Proof. induction a; cbn; congruence. Qed.
Lemma sapp_eq_len a b c d : String.length a = String.length c -> a ++ b = c ++ d -> a = c /\ b = d.
Proof.
  revert c. induction a as [|x a IH]; intros [|y c] Hl H; cbn in *; try discriminate; auto.
  inversion H; subst. destruct (IH c) as [-> ->]; auto.
Qed.
Lemma sapp_inv_tail a b c : a ++ c = b ++ c -> a = b.
Proof.
  intros H. apply (sapp_eq_len a c b c); auto.
  apply (f_equal String.length) in H. rewrite !sapp_length in H. lia.
Qed.

Lemma all_chars_app p a b : all_chars p (a ++ b) = all_chars p a && all_chars p b.
Proof. induction a; cbn; [reflexivity|]. rewrite IHa. now rewrite andb_assoc. Qed.

Lemma all_chars_impl (p q : ascii -> bool) s :
  (forall a, p a = true -> q a = true) -> all_chars p s = true -> all_chars q s = true.
Proof.
  intros H. induction s; cbn; [auto|]. rewrite !andb_true_iff. intros [? ?]; auto.
Qed.

Lemma has_char_false c s : has_char c s = false <-> all_chars (fun a => negb (Ascii.eqb a c)) s = true.
Proof. unfold has_char. rewrite negb_false_iff. tauto. Qed.

Lemma has_char_app c a b : has_char c (a ++ b) = has_char c a || has_char c b.
Proof. unfold has_char. rewrite all_chars_app. now rewrite negb_andb. Qed.

Lemma has_char_cons c a s : has_char c (String a s) = Ascii.eqb a c || has_char c s.
Proof. unfold has_char. cbn. rewrite negb_andb, negb_involutive. reflexivity. Qed.

Lemma has_char_all p c s : p c = false -> all_chars p s = true -> has_char c s = false.
Proof.
  intros Hc H. apply has_char_false. eapply all_chars_impl; [|exact H].
  intros a Ha. apply negb_true_iff. destruct (Ascii.eqb_spec a c); [congruence|reflexivity].
Qed.

Lemma split_on_nil c s : split_on c s <> [].
Proof.
  destruct s; cbn; [discriminate|]. destruct (Ascii.eqb _ _); [discriminate|].
  destruct (split_on c s); discriminate.
Qed.

Lemma split_on_none c s : has_char c s = false -> split_on c s = [s].
Proof.
  induction s; cbn; [reflexivity|]. rewrite has_char_cons. intros H.
  apply orb_false_iff in H. destruct H as [H1 H2]. rewrite H1, (IHs H2). reflexivity.
Qed.

Lemma split_on_sep c a b : has_char c a = false -> split_on c (a ++ String c b) = a :: split_on c b.
Proof.
  induction a; cbn; intros H.
  - now rewrite Ascii.eqb_refl.
  - rewrite has_char_cons in H. apply orb_false_iff in H. destruct H as [H1 H2].
    rewrite H1, (IHa H2). reflexivity.
Qed.

Lemma split_on_join c l : Forall (fun s => has_char c s = false) l -> l <> [] ->
  split_on c (join (String c "") l) = l.
Proof.
  induction l as [|x l IH]; intros H Hn; [congruence|]. inversion H; subst.
  destruct l as [|y l].
  - cbn. now apply split_on_none.
  - change (join (String c "") (x :: y :: l)) with (x ++ String c (join (String c "") (y :: l))).
    rewrite split_on_sep by assumption. f_equal. apply IH; [assumption|discriminate].
Qed.

(** Every string is the join of its pieces, and no piece holds the separator. *)
Lemma join_split_on c s : join (String c "") (split_on c s) = s.
Proof.
  induction s as [|a s IH]; [reflexivity|]. cbn [split_on].
  destruct (Ascii.eqb_spec a c) as [->|Hne].
  - destruct (split_on c s) as [|p ps] eqn:E; [now apply split_on_nil in E|].
    change (join (String c "") ("" :: p :: ps)) with (String c (join (String c "") (p :: ps))).
    now rewrite IH.
  - destruct (split_on c s) as [|p ps] eqn:E; [now apply split_on_nil in E|].
    destruct ps as [|q ps]; cbn in *; now rewrite IH.
Qed.

Lemma split_on_pieces c s : Forall (fun p => has_char c p = false) (split_on c s).
Proof.
  induction s as [|a s IH]; cbn; [repeat constructor|].
  destruct (Ascii.eqb a c) eqn:E; [now constructor|].
  destruct (split_on c s) as [|p ps]; [constructor; [|constructor]|].
  - rewrite has_char_cons, E. reflexivity.
  - inversion IH; subst. constructor; [|assumption]. rewrite has_char_cons, E. assumption.
Qed.

Lemma N_of_ascii_lt a : (N_of_ascii a < 256)%N.
Proof. destruct a as [[] [] [] [] [] [] [] []]; vm_compute; reflexivity. Qed.

Lemma ascii_of_N_inj a b : N_of_ascii a = N_of_ascii b -> a = b.
Proof. intros H. rewrite <- (ascii_N_embedding a), <- (ascii_N_embedding b). now rewrite H. Qed.

Lemma lower_idem s : lower (lower s) = lower s.
Proof.
  induction s as [|a s IH]; cbn; [reflexivity|]. rewrite IH. f_equal.
  destruct a as [[] [] [] [] [] [] [] []]; reflexivity.
Qed.

Lemma lower_app a b : lower (a ++ b) = lower a ++ lower b.
Proof. induction a; cbn; congruence. Qed.

Lemma lower_length s : String.length (lower s) = String.length s.
Proof. induction s; cbn; congruence. Qed.

Lemma digit_chr_spec n : (n < 10)%N -> is_digit (digit_chr n) = true /\ digit_val (digit_chr n) = n.
Proof.
  intros H. unfold is_digit, digit_val, digit_chr. rewrite N_ascii_embedding by lia. split; [|lia].
  apply andb_true_iff; split; apply N.leb_le; lia.
Qed.

Lemma digits_val_app a b acc :
  digits_val acc (a ++ b) = match digits_val acc a with Some v => digits_val v b | None => None end.
Proof. revert acc; induction a; intros; cbn; [reflexivity|]. destruct (is_digit a); auto. Qed.

Lemma dec_fuel_digits f n : all_chars is_digit (dec_fuel f n) = true.
Proof.
  revert n; induction f; intros; cbn; [reflexivity|]. rewrite all_chars_app. cbn.
  rewrite (proj1 (digit_chr_spec (n mod 10) ltac:(apply N.mod_lt; lia))).
  destruct (n <? 10)%N; cbn; [reflexivity|]. now rewrite IHf.
Qed.

Lemma dec_fuel_val f n : (n < 2 ^ N.of_nat f)%N -> digits_val 0 (dec_fuel f n) = Some n.
Proof.
  revert n; induction f; intros n H; cbn [dec_fuel].
  - cbn in *. f_equal; lia.
  - rewrite digits_val_app.
    assert (H0: (n mod 10 < 10)%N) by (apply N.mod_lt; lia).
    assert (Hd: (n = 10 * (n / 10) + n mod 10)%N) by (apply N.div_mod; lia).
    destruct (N.ltb_spec n 10).
    + cbn. destruct (digit_chr_spec (n mod 10) H0) as [-> ->]. f_equal. rewrite N.mod_small; lia.
    + rewrite IHf.
      * cbn. destruct (digit_chr_spec (n mod 10) H0) as [-> ->]. f_equal. lia.
      * rewrite Nat2N.inj_succ, N.pow_succ_r' in H. revert H Hd H0. clear.
        generalize (2 ^ N.of_nat f)%N (n / 10)%N (n mod 10)%N. intros; lia.
Qed.

Lemma dec_digits n : all_chars is_digit (dec n) = true.
Proof. apply dec_fuel_digits. Qed.

Lemma dec_val n : digits_val 0 (dec n) = Some n.
Proof.
  apply dec_fuel_val. rewrite Nat2N.inj_succ, N2Nat.id.
  destruct n as [|p]; [cbn; lia|]. apply N.log2_spec; lia.
Qed.

Lemma dec_inj a b : dec a = dec b -> a = b.
Proof. intros H. pose proof (dec_val a) as Ha. rewrite H, dec_val in Ha. congruence. Qed.

Lemma dec_nonempty n : dec n <> "".
Proof.
  unfold dec. cbn. intros H. apply (f_equal String.length) in H.
  rewrite sapp_length in H. cbn in H. lia.
Qed.
