(** The text of a signature (properties C37, C38): which texts of a signature stand for which bytes,
    for every text and all bytes.  Model: SigModel.v.  Vocabulary: SigBase64Spec.v. *)
From Verif Require Import Base Text SigModel SigSpec SigProofs SigBase64Spec.
From Coq Require Import Ascii.
Local Open Scope list_scope.

Lemma below64 (P : nat -> bool) : forallb P (seq 0 64) = true -> forall n, n < 64 -> P n = true.
Proof. intros H n L. rewrite forallb_forall in H. apply H. apply in_seq. lia. Qed.
Definition ascii_opt_eqb (a b : option ascii) : bool :=
  match a, b with Some x, Some y => Ascii.eqb x y | None, None => true | _, _ => false end.
Lemma val_get c v : b64_val c = Some v -> String.get (N.to_nat v) alphabet = Some c /\ N.to_nat v < 64.
Proof.
  destruct c as [b0 b1 b2 b3 b4 b5 b6 b7]. destruct b0, b1, b2, b3, b4, b5, b6, b7; vm_compute; intros [= <-]; split; try reflexivity; vm_compute; lia.
Qed.
Lemma get_lt d c : String.get d alphabet = Some c -> d < 64.
Proof. intros H. destruct (Nat.lt_ge_cases d 64) as [|G]; [assumption|]. exfalso. do 64 (destruct d as [|d]; [lia|]). cbn in H. destruct d; discriminate. Qed.
Definition bits_eqb (a b : list bool) : bool := if list_eq_dec Bool.bool_dec a b then true else false.
Lemma bits_eqb_ok a b : bits_eqb a b = true -> a = b.
Proof. unfold bits_eqb. destruct (list_eq_dec _ a b); congruence. Qed.
Lemma pair64 (f g : nat -> nat -> list bool) : forallb (fun x => forallb (fun y => bits_eqb (f x y) (g x y)) (seq 0 64)) (seq 0 64) = true ->
  forall x y, x < 64 -> y < 64 -> f x y = g x y.
Proof. intros H x y X Y. apply bits_eqb_ok. exact (below64 _ (below64 (fun x => forallb _ _) H x X) y Y). Qed.
Definition nth_bits (l : list nat) (d : nat) : list bool := map (Nat.testbit d) l.
Lemma first_byte x y : x < 64 -> y < 64 -> byte_bits (ascii_of_N (N.of_nat x * 4 + N.of_nat y / 16)) = nth_bits [5;4;3;2;1;0] x ++ nth_bits [5;4] y.
Proof. apply (pair64 (fun x y => byte_bits (ascii_of_N (N.of_nat x * 4 + N.of_nat y / 16))) (fun x y => nth_bits [5;4;3;2;1;0] x ++ nth_bits [5;4] y)). vm_compute. reflexivity. Qed.
Lemma second_byte y z : y < 64 -> z < 64 -> byte_bits (ascii_of_N ((N.of_nat y mod 16) * 16 + N.of_nat z / 4)) = nth_bits [3;2;1;0] y ++ nth_bits [5;4;3;2] z.
Proof. apply (pair64 (fun y z => byte_bits (ascii_of_N ((N.of_nat y mod 16) * 16 + N.of_nat z / 4))) (fun y z => nth_bits [3;2;1;0] y ++ nth_bits [5;4;3;2] z)). vm_compute. reflexivity. Qed.
Lemma third_byte z w : z < 64 -> w < 64 -> byte_bits (ascii_of_N ((N.of_nat z mod 4) * 64 + N.of_nat w)) = nth_bits [1;0] z ++ nth_bits [5;4;3;2;1;0] w.
Proof. apply (pair64 (fun z w => byte_bits (ascii_of_N ((N.of_nat z mod 4) * 64 + N.of_nat w))) (fun z w => nth_bits [1;0] z ++ nth_bits [5;4;3;2;1;0] w)). vm_compute. reflexivity. Qed.
Lemma low4 y : y < 64 -> (N.of_nat y mod 16)%N = 0%N -> nth_bits [3;2;1;0] y = [false; false; false; false].
Proof.
  intros Y E. apply bits_eqb_ok. pose proof (below64 (fun y => if (N.of_nat y mod 16 =? 0)%N then bits_eqb (nth_bits [3;2;1;0] y) [false; false; false; false] else true) ltac:(vm_compute; reflexivity) y Y) as H.
  cbn beta in H. rewrite (proj2 (N.eqb_eq _ _) E) in H. exact H.
Qed.
Lemma low2 y : y < 64 -> (N.of_nat y mod 4)%N = 0%N -> nth_bits [1;0] y = [false; false].
Proof.
  intros Y E. apply bits_eqb_ok. pose proof (below64 (fun y => if (N.of_nat y mod 4 =? 0)%N then bits_eqb (nth_bits [1;0] y) [false; false] else true) ltac:(vm_compute; reflexivity) y Y) as H.
  cbn beta in H. rewrite (proj2 (N.eqb_eq _ _) E) in H. exact H.
Qed.
Lemma digit_inj x y : x < 64 -> y < 64 -> digit_bits x = digit_bits y -> x = y.
Proof.
  intros X Y E. pose proof (below64 _ (below64 (fun x => forallb (fun y => if bits_eqb (digit_bits x) (digit_bits y) then Nat.eqb x y else true) (seq 0 64)) ltac:(vm_compute; reflexivity) x X) y Y) as H.
  cbn beta in H. rewrite E in H. unfold bits_eqb in H. destruct (list_eq_dec _ _ _) in H; [|congruence]. now apply Nat.eqb_eq.
Qed.

Ltac value c := let v := fresh "v" in let E := fresh "E" in destruct (b64_val c) as [v|] eqn:E; [|discriminate];
  let G := fresh "G" in let L := fresh "L" in destruct (val_get c v E) as [G L];
  let n := fresh "n" in let Q := fresh "Q" in remember (N.to_nat v) as n eqn:Q; assert (v = N.of_nat n) by (subst n; now rewrite N2Nat.id); subst v; clear Q.
Lemma decode_sound_n n : forall sg x, String.length sg <= n -> b64_decode sg = Some x -> base64url sg x.
Proof.
  induction n as [|n IH]; intros sg x Hn.
  { destruct sg; [|cbn in Hn; lia]. intros [= <-]. exists [], 0. repeat split; [constructor|lia]. }
  destruct sg as [|a [|b [|c [|d r]]]].
  - intros [= <-]. exists [], 0. repeat split; [constructor|lia].
  - discriminate.
  - cbn [b64_decode]. value a. value b. destruct (N.eqb_spec (N.of_nat n1 mod 16) 0) as [Z|]; [|discriminate]. intros [= <-].
    exists [n0; n1], 4. split; [repeat constructor; assumption|]. split; [lia|]. cbn [list_ascii_of_string map concat]. rewrite first_byte by assumption.
    pose proof (low4 n1 L0 Z) as Z'. unfold digit_bits, nth_bits in *. cbn [map app repeat] in *. now rewrite Z'.
  - cbn [b64_decode]. value a. value b. value c. destruct (N.eqb_spec (N.of_nat n2 mod 4) 0) as [Z|]; [|discriminate]. intros [= <-].
    exists [n0; n1; n2], 2. split; [repeat constructor; assumption|]. split; [lia|]. cbn [list_ascii_of_string map concat]. rewrite first_byte, second_byte by assumption.
    pose proof (low2 n2 L1 Z) as Z'. unfold digit_bits, nth_bits in *. cbn [map app repeat] in *. now rewrite Z'.
  - cbn [b64_decode]. value a. value b. value c. value d. destruct (b64_decode r) as [t|] eqn:D; [|discriminate]. intros [= <-].
    destruct (IH r t) as (ds & fill & F & K & C); [cbn in Hn; lia|exact D|].
    exists (n0 :: n1 :: n2 :: n3 :: ds), fill. split; [repeat constructor; assumption|]. split; [exact K|].
    cbn [list_ascii_of_string map concat]. rewrite C, first_byte, second_byte, third_byte by assumption. unfold digit_bits, nth_bits. cbn [map app]. reflexivity.
Qed.
Lemma decode_sound sg x : b64_decode sg = Some x -> base64url sg x.
Proof. apply (decode_sound_n (String.length sg)). reflexivity. Qed.
Lemma bits_length ds : length (concat (map digit_bits ds)) = 6 * length ds.
Proof. induction ds as [|d ds IH]; [reflexivity|]. cbn [map concat]. rewrite app_length, IH. cbn. lia. Qed.
Lemma digits_inj ds ds' : length ds = length ds' -> Forall (fun d => d < 64) ds -> Forall (fun d => d < 64) ds' ->
  concat (map digit_bits ds) = concat (map digit_bits ds') -> ds = ds'.
Proof.
  revert ds'. induction ds as [|d ds IH]; intros [|d' ds'] L F F' E; try discriminate; [reflexivity|].
  inversion F; inversion F'; subst. cbn [map concat] in E. assert (E1 : digit_bits d = digit_bits d').
  { apply (f_equal (firstn 6)) in E. exact E. }
  rewrite E1 in E. apply app_inv_head in E. f_equal; [now apply digit_inj|apply IH; auto].
Qed.
Lemma unique sg sg' x : base64url sg x -> base64url sg' x -> sg = sg'.
Proof.
  intros (ds & f & F & K & C) (ds' & f' & F' & K' & C').
  pose proof (bits_length ds) as B. pose proof (bits_length ds') as B'. rewrite C in B. rewrite C' in B'. rewrite app_length, repeat_length in B, B'.
  assert (length ds = length ds') as L by lia. assert (f = f') by lia. subst f'.
  assert (ds = ds') as <-.
  { apply digits_inj; [exact L| | |congruence].
    - clear -F. induction F as [|c d l l' H _ IH]; constructor; [exact (get_lt _ _ H)|exact IH].
    - clear -F'. induction F' as [|c d l l' H _ IH]; constructor; [exact (get_lt _ _ H)|exact IH]. }
  rewrite <- (string_of_list_ascii_of_string sg), <- (string_of_list_ascii_of_string sg'). f_equal.
  clear -F F'. revert F'. generalize (list_ascii_of_string sg'). induction F as [|c d l ds H _ IH]; intros l' G; inversion G; subst; [reflexivity|]. f_equal; [congruence|now apply IH].
Qed.

(** The verifier takes the text of a signature for these bytes exactly if it is the base64 text of
    them: no padding, no other alphabet, no stray bits at the end. *)
Theorem C38_signature_text : forall sg x, b64_decode sg = Some x <-> base64url sg x.
Proof.
  intros sg x. split; [apply decode_sound|]. intros H.
  rewrite (unique sg (b64_encode x) x H (decode_sound _ _ (b64_round_trip x))). apply b64_round_trip.
Qed.
(** So no bytes have two texts, no text stands for two sequences of bytes, and the signer writes the
    one text there is. *)
Theorem C37_signature_text : forall sg x, b64_encode x = sg <-> base64url sg x.
Proof.
  intros sg x. split.
  - intros <-. apply decode_sound, b64_round_trip.
  - intros H. exact (unique _ _ x (decode_sound _ _ (b64_round_trip x)) H).
Qed.
(** An authentic request presents the base64 text of the code of its own text, and no other. *)
Theorem C38_one_signature : forall hmac pairs m k kp ns d fs, authentic hmac pairs m k kp ns d fs <->
  exists h sg, has_header m "bluelink-signature-v1" h /\ header_text h /\ presents h k ns sg /\ lookup k pairs = Some kp /\ request_date m d /\ fields m ns fs /\
    base64url sg (hmac (secret_key kp) (signed_text (key_id kp) d fs)).
Proof.
  intros hmac pairs m k kp ns d fs. split; intros (h & sg & H1 & H2 & H3 & H4 & H5 & H6 & H7); exists h, sg; repeat (split; [assumption|]); now apply C38_signature_text.
Qed.

Example C38_text_nonvacuous : base64url "_-8AQQ" (String "255" (String "239" (String "000" "A"))) /\ ~ (exists x, base64url "QR" x) /\ ~ (exists x, base64url "QQ==" x) /\ ~ (exists x, base64url "+/" x) /\ ~ (exists x, base64url "Q" x).
Proof.
  split; [apply C38_signature_text; vm_compute; reflexivity|]. repeat split; intros (x & H); apply C38_signature_text in H; vm_compute in H; discriminate.
Qed.

Print Assumptions C38_signature_text.
Print Assumptions C37_signature_text.
Print Assumptions C38_one_signature.
