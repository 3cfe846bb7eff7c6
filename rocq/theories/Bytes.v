(** UTF-8 and base64 (Rust core, base64 crate): transcribed because the template functions
    expose them.  Not a model of repository code by itself. *)
From Verif Require Import Base Chars.
Local Open Scope N_scope.

(** Rust's [char] holds exactly the Unicode scalar values. *)
Definition scalar_value (c : N) : Prop := c < 55296 \/ 57344 <= c <= 1114111.

(** [str::as_bytes] *)
Definition utf8_char (c : N) : list N :=
  if c <? 128 then [c]
  else if c <? 2048 then [192 + c / 64; 128 + c mod 64]
  else if c <? 65536 then [224 + c / 4096; 128 + (c / 64) mod 64; 128 + c mod 64]
  else [240 + c / 262144; 128 + (c / 4096) mod 64; 128 + (c / 64) mod 64; 128 + c mod 64].
Definition utf8 (t : text) : list N := concat (map utf8_char t).

Definition replacement : N := 65533.
Definition between (lo hi c : N) : bool := (lo <=? c) && (c <=? hi).
Definition cont (c : N) : bool := between 128 191 c.
(** [String::from_utf8_lossy]: every maximal part of a sequence that is not valid UTF-8 is
    replaced by U+FFFD. *)
Fixpoint lossy (l : list N) : text :=
  match l with
  | [] => []
  | a :: l1 =>
      if a <? 128 then a :: lossy l1
      else if between 194 223 a then
        match l1 with
        | b :: l2 => if cont b then ((a - 192) * 64 + (b - 128)) :: lossy l2 else replacement :: lossy l1
        | [] => [replacement]
        end
      else if between 224 239 a then
        match l1 with
        | b :: l2 =>
            if (if a =? 224 then between 160 191 b else if a =? 237 then between 128 159 b else cont b) then
              match l2 with
              | c :: l3 => if cont c then ((a - 224) * 4096 + (b - 128) * 64 + (c - 128)) :: lossy l3 else replacement :: lossy l2
              | [] => [replacement]
              end
            else replacement :: lossy l1
        | [] => [replacement]
        end
      else if between 240 244 a then
        match l1 with
        | b :: l2 =>
            if (if a =? 240 then between 144 191 b else if a =? 244 then between 128 143 b else cont b) then
              match l2 with
              | c :: l3 =>
                  if cont c then
                    match l3 with
                    | d :: l4 => if cont d then ((a - 240) * 262144 + (b - 128) * 4096 + (c - 128) * 64 + (d - 128)) :: lossy l4 else replacement :: lossy l3
                    | [] => [replacement]
                    end
                  else replacement :: lossy l2
              | [] => [replacement]
              end
            else replacement :: lossy l1
        | [] => [replacement]
        end
      else replacement :: lossy l1
  end.

(** base64 with the standard alphabet and padding ([BASE64_STANDARD]: padding is required and
    the unused bits must be zero) *)
Definition b64_code (n : N) : N :=
  if n <? 26 then n + 65 else if n <? 52 then n + 71 else if n <? 62 then n - 4 else if n =? 62 then 43 else 47.
Definition b64_num (c : N) : option N :=
  if between 65 90 c then Some (c - 65)
  else if between 97 122 c then Some (c - 71)
  else if between 48 57 c then Some (c + 4)
  else if c =? 43 then Some 62
  else if c =? 47 then Some 63
  else None.
Fixpoint b64_enc (l : list N) : text :=
  match l with
  | [] => []
  | [x] => [b64_code (x / 4); b64_code ((x mod 4) * 16); 61; 61]
  | [x; y] => [b64_code (x / 4); b64_code ((x mod 4) * 16 + y / 16); b64_code ((y mod 16) * 4); 61]
  | x :: y :: z :: l' =>
      b64_code (x / 4) :: b64_code ((x mod 4) * 16 + y / 16) :: b64_code ((y mod 16) * 4 + z / 64) :: b64_code (z mod 64) :: b64_enc l'
  end.
Fixpoint b64_dec (t : text) : option (list N) :=
  match t with
  | [] => Some []
  | a :: b :: c :: d :: t' =>
      match b64_num a, b64_num b with
      | Some x, Some y =>
          if (c =? 61) && (d =? 61) then
            match t' with [] => if y mod 16 =? 0 then Some [x * 4 + y / 16] else None | _ => None end
          else
            match b64_num c with
            | Some z =>
                if d =? 61 then
                  match t' with [] => if z mod 4 =? 0 then Some [x * 4 + y / 16; (y mod 16) * 16 + z / 4] else None | _ => None end
                else
                  match b64_num d, b64_dec t' with
                  | Some w, Some l => Some (x * 4 + y / 16 :: (y mod 16) * 16 + z / 4 :: (z mod 4) * 64 + w :: l)
                  | _, _ => None
                  end
            | None => None
            end
      | _, _ => None
      end
  | _ => None
  end.

Ltac Nify := zify; Z.to_euclidean_division_equations; lia.
Lemma utf8_char_lossy c l : scalar_value c -> lossy (utf8_char c ++ l) = c :: lossy l.
Proof.
  intros Hc. unfold utf8_char.
  destruct (N.ltb_spec c 128) as [H1|H1].
  { cbn [app lossy]. now rewrite (proj2 (N.ltb_lt _ _) H1). }
  assert (C : forall x, cont (128 + x mod 64) = true). { intros x. unfold cont, between. rewrite andb_true_iff, !N.leb_le. Nify. }
  destruct (N.ltb_spec c 2048) as [H2|H2].
  { cbn [app lossy]. set (a := 192 + c / 64). assert (Ha : 194 <= a <= 223) by (unfold a; Nify).
    rewrite (proj2 (N.ltb_ge a 128)) by lia. replace (between 194 223 a) with true by (unfold between; symmetry; rewrite andb_true_iff, !N.leb_le; lia).
    rewrite C. f_equal. unfold a. Nify. }
  destruct (N.ltb_spec c 65536) as [H3|H3].
  { cbn [app lossy]. set (a := 224 + c / 4096). set (b := 128 + (c / 64) mod 64). assert (Ha : 224 <= a <= 239) by (unfold a; Nify).
    rewrite (proj2 (N.ltb_ge a 128)) by lia. replace (between 194 223 a) with false by (unfold between; symmetry; rewrite andb_false_iff, !N.leb_gt; lia).
    replace (between 224 239 a) with true by (unfold between; symmetry; rewrite andb_true_iff, !N.leb_le; lia).
    assert (Hb : (if a =? 224 then between 160 191 b else if a =? 237 then between 128 159 b else cont b) = true).
    { destruct (N.eqb_spec a 224) as [E|_]; [unfold between; rewrite andb_true_iff, !N.leb_le; unfold a, b in *; Nify|].
      destruct (N.eqb_spec a 237) as [E|_]; [|apply C]. unfold between. rewrite andb_true_iff, !N.leb_le. unfold scalar_value, a, b in *. Nify. }
    rewrite Hb, C. f_equal. unfold a, b. Nify. }
  cbn [app lossy]. set (a := 240 + c / 262144). set (b := 128 + (c / 4096) mod 64). assert (Ha : 240 <= a <= 244) by (unfold a, scalar_value in *; Nify).
  rewrite (proj2 (N.ltb_ge a 128)) by lia. replace (between 194 223 a) with false by (unfold between; symmetry; rewrite andb_false_iff, !N.leb_gt; lia).
  replace (between 224 239 a) with false by (unfold between; symmetry; rewrite andb_false_iff, !N.leb_gt; lia).
  replace (between 240 244 a) with true by (unfold between; symmetry; rewrite andb_true_iff, !N.leb_le; lia).
  assert (Hb : (if a =? 240 then between 144 191 b else if a =? 244 then between 128 143 b else cont b) = true).
  { destruct (N.eqb_spec a 240) as [E|_]; [unfold between; rewrite andb_true_iff, !N.leb_le; unfold a, b in *; Nify|].
    destruct (N.eqb_spec a 244) as [E|_]; [|apply C]. unfold between. rewrite andb_true_iff, !N.leb_le. unfold scalar_value, a, b in *. Nify. }
  rewrite Hb, !C. f_equal. unfold a, b. Nify.
Qed.
Lemma utf8_lossy t : Forall scalar_value t -> lossy (utf8 t) = t.
Proof. unfold utf8. induction 1 as [|c t Hc Ht IH]; [reflexivity|]. cbn [map concat]. rewrite utf8_char_lossy by exact Hc. now rewrite IH. Qed.
Lemma utf8_char_bytes c : scalar_value c -> Forall (fun b => b < 256) (utf8_char c).
Proof.
  intros Hc. unfold utf8_char, scalar_value in *. destruct (N.ltb_spec c 128); [repeat constructor; lia|].
  destruct (N.ltb_spec c 2048); [|destruct (N.ltb_spec c 65536)]; repeat constructor; Nify.
Qed.
Lemma utf8_bytes t : Forall scalar_value t -> Forall (fun b => b < 256) (utf8 t).
Proof. unfold utf8. induction 1; cbn; [constructor|]. apply Forall_app. split; [now apply utf8_char_bytes|assumption]. Qed.
Lemma utf8_char_length c : length (utf8_char c) = utf8_len c.
Proof. unfold utf8_char, utf8_len. destruct (c <? 128); [reflexivity|]. destruct (c <? 2048); [reflexivity|]. destruct (c <? 65536); reflexivity. Qed.

Lemma b64_num_code n : n < 64 -> b64_num (b64_code n) = Some n /\ b64_code n <> 61 /\ b64_code n < 128.
Proof.
  intros H. unfold b64_code.
  assert (L : In n (map N.of_nat (seq 0 64))). { rewrite <- (N2Nat.id n). apply in_map. apply in_seq. lia. }
  clear H. revert n L. apply Forall_forall. repeat (apply Forall_cons; [vm_compute; split; [reflexivity|split; [discriminate|reflexivity]]|]). apply Forall_nil.
Qed.
Lemma list_ind3 (P : list N -> Prop) : P [] -> (forall x, P [x]) -> (forall x y, P [x; y]) -> (forall x y z l, P l -> P (x :: y :: z :: l)) -> forall l, P l.
Proof.
  intros H0 H1 H2 H3. fix IH 1. intros [|x [|y [|z l]]]; [exact H0|apply H1|apply H2|apply H3, IH].
Qed.
Lemma b64_round l : Forall (fun b => b < 256) l -> b64_dec (b64_enc l) = Some l.
Proof.
  induction l as [|x|x y|x y z l IH] using list_ind3; intros H; cbn [b64_enc b64_dec].
  - reflexivity.
  - inversion H; subst. rewrite (proj1 (b64_num_code (x / 4) ltac:(Nify))), (proj1 (b64_num_code ((x mod 4) * 16) ltac:(Nify))). cbn [N.eqb Pos.eqb andb].
    replace ((x mod 4 * 16) mod 16 =? 0) with true by (symmetry; apply N.eqb_eq; Nify). do 2 f_equal. Nify.
  - inversion H as [|? ? Hx H']; subst. inversion H'; subst.
    destruct (b64_num_code ((y mod 16) * 4) ltac:(Nify)) as (E1 & E2 & _).
    rewrite (proj1 (b64_num_code (x / 4) ltac:(Nify))), (proj1 (b64_num_code ((x mod 4) * 16 + y / 16) ltac:(Nify))), E1, (proj2 (N.eqb_neq _ _) E2). cbn [N.eqb Pos.eqb andb].
    replace ((y mod 16 * 4) mod 4 =? 0) with true by (symmetry; apply N.eqb_eq; Nify). f_equal. f_equal; [Nify|]. f_equal. Nify.
  - inversion H as [|? ? Hx H']; subst. inversion H' as [|? ? Hy H'']; subst. inversion H'' as [|? ? Hz Hl]; subst.
    destruct (b64_num_code ((y mod 16) * 4 + z / 64) ltac:(Nify)) as (E1 & E2 & _). destruct (b64_num_code (z mod 64) ltac:(Nify)) as (E3 & E4 & _).
    rewrite (proj1 (b64_num_code (x / 4) ltac:(Nify))), (proj1 (b64_num_code ((x mod 4) * 16 + y / 16) ltac:(Nify))), E1, E3, (proj2 (N.eqb_neq _ _) E2), (proj2 (N.eqb_neq _ _) E4), (IH Hl). cbn [andb].
    f_equal. f_equal; [Nify|]. f_equal; [Nify|]. f_equal. Nify.
Qed.
Lemma b64_enc_ascii l : Forall (fun b => b < 256) l -> Forall (fun c => c < 128) (b64_enc l).
Proof.
  induction l as [|x|x y|x y z l IH] using list_ind3; intros H; cbn [b64_enc].
  - constructor.
  - inversion H; subst. repeat constructor; apply b64_num_code; Nify.
  - inversion H as [|? ? Hx H']; subst. inversion H'; subst. repeat constructor; apply b64_num_code; Nify.
  - inversion H as [|? ? Hx H']; subst. inversion H' as [|? ? Hy H'']; subst. inversion H'' as [|? ? Hz Hl]; subst.
    repeat (constructor; [apply b64_num_code; Nify|]). exact (IH Hl).
Qed.
Lemma utf8_ascii t : Forall (fun c => c < 128) t -> utf8 t = t.
Proof. unfold utf8. induction 1 as [|c t Hc Ht IH]; [reflexivity|]. cbn [map concat]. rewrite IH. unfold utf8_char. now rewrite (proj2 (N.ltb_lt _ _) Hc). Qed.
