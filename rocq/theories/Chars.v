(** Unicode text as lists of code points, and the character classes of Rust's [char].
    Not a model of repository code by itself. *)
From Verif Require Import Base.
Local Open Scope N_scope.

Definition text := list N.
Definition chr (a : ascii) : N := N_of_ascii a.
Definition chars (s : string) : text := map chr (list_ascii_of_string s).

Definition is_digit (c : N) : bool := (48 <=? c) && (c <=? 57).
Definition is_letter (c : N) : bool := ((65 <=? c) && (c <=? 90)) || ((97 <=? c) && (c <=? 122)).
Definition is_blank (c : N) : bool := (c =? 32) || ((9 <=? c) && (c <=? 13)).

(** [char::is_alphabetic], [char::is_alphanumeric], [char::is_whitespace]: parameters,
    known on ASCII. *)
Record classes := { alphabetic : N -> bool; alphanumeric : N -> bool; whitespace : N -> bool }.
Definition sane (k : classes) : Prop :=
  (forall c, c < 128 -> alphabetic k c = is_letter c) /\
  (forall c, c < 128 -> alphanumeric k c = is_letter c || is_digit c) /\
  (forall c, c < 128 -> whitespace k c = is_blank c).
(** One such choice *)
Definition ascii_classes : classes :=
  {| alphabetic := is_letter; alphanumeric := fun c => is_letter c || is_digit c; whitespace := is_blank |}.
Lemma ascii_sane : sane ascii_classes.
Proof. repeat split. Qed.

(** Bytes of the UTF-8 form of a code point *)
Definition utf8_len (c : N) : nat := if c <? 128 then 1 else if c <? 2048 then 2 else if c <? 65536 then 3 else 4.

(** [take_while] and what is left *)
Fixpoint span (p : N -> bool) (l : text) : text * text :=
  match l with
  | [] => ([], [])
  | c :: l' => if p c then let (a, b) := span p l' in (c :: a, b) else ([], l)
  end.
Lemma span_app p l : fst (span p l) ++ snd (span p l) = l.
Proof. induction l as [|c l IH]; cbn; [reflexivity|]. destruct (p c); [|reflexivity]. destruct (span p l). cbn in *. now rewrite IH. Qed.
Lemma span_all p l : forallb p (fst (span p l)) = true.
Proof. induction l as [|c l IH]; cbn; [reflexivity|]. destruct (p c) eqn:E; [|reflexivity]. destruct (span p l). cbn in *. now rewrite E, IH. Qed.
Lemma span_stop p l : match snd (span p l) with [] => True | c :: _ => p c = false end.
Proof. induction l as [|c l IH]; cbn; [exact I|]. destruct (p c) eqn:E; [|exact E]. destruct (span p l). exact IH. Qed.
Lemma span_exact p a b : forallb p a = true -> match b with [] => True | c :: _ => p c = false end -> span p (a ++ b) = (a, b).
Proof.
  induction a as [|c a IH]; cbn; intros Ha Hb.
  - destruct b as [|c b]; [reflexivity|]. cbn. now rewrite Hb.
  - apply andb_prop in Ha. destruct Ha as [-> Ha]. now rewrite (IH Ha Hb).
Qed.

(** [str::starts_with] *)
Fixpoint starts_with (p l : text) : bool :=
  match p, l with
  | [], _ => true
  | c :: p', d :: l' => (c =? d) && starts_with p' l'
  | _ :: _, [] => false
  end.
Lemma starts_with_spec p l : starts_with p l = true <-> exists r, l = p ++ r.
Proof.
  revert l. induction p as [|c p IH]; intros l; cbn.
  - split; [intros _; exists l; reflexivity|reflexivity].
  - destruct l as [|d l].
    + split; [discriminate|intros (r & H); discriminate].
    + rewrite andb_true_iff, N.eqb_eq, IH. split.
      * intros (-> & r & ->). exists r. reflexivity.
      * intros (r & H). inversion H; subst. split; [reflexivity|]. exists r. reflexivity.
Qed.
(** [str::contains] *)
Fixpoint contains (p l : text) : bool :=
  starts_with p l || match l with [] => false | _ :: l' => contains p l' end.
Lemma contains_spec p l : contains p l = true <-> exists a b, l = a ++ p ++ b.
Proof.
  induction l as [|c l IH]; cbn [contains]; rewrite orb_true_iff, starts_with_spec.
  - split.
    + intros [(r & H)|H]; [exists [], r; exact H|discriminate].
    + intros (a & b & H). left. destruct a; [exists b; exact H|discriminate].
  - rewrite IH. split.
    + intros [(r & H)|(a & b & ->)]; [exists [], r; exact H|exists (c :: a), b; reflexivity].
    + intros (a & b & H). destruct a as [|d a]; [left; exists b; exact H|right]. inversion H; subst. exists a, b. reflexivity.
Qed.

Lemma text_eq_dec (a b : text) : {a = b} + {a <> b}.
Proof. apply list_eq_dec, N.eq_dec. Defined.
Definition text_eqb (a b : text) : bool := if text_eq_dec a b then true else false.
Lemma text_eqb_eq a b : text_eqb a b = true <-> a = b.
Proof. unfold text_eqb. destruct (text_eq_dec a b); split; congruence. Qed.
