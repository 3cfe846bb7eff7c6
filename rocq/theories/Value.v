(** JSON values with Unicode strings (serde_json::Value, third party: its data type and the
    map operations the code uses are transcribed).  Objects are serde_json's [Map], a
    [BTreeMap] without the feature "preserve_order": association lists sorted by key. *)
From Verif Require Export Base Json Chars.
Local Open Scope list_scope.

Inductive value :=
| VNull
| VBool (b : bool)
| VNum (n : num)
| VStr (t : text)
| VArr (l : list value)
| VObj (m : list (text * value)).

Section ValueInd.
  Variable P : value -> Prop.
  Hypothesis Hnull : P VNull.
  Hypothesis Hbool : forall b, P (VBool b).
  Hypothesis Hnum : forall n, P (VNum n).
  Hypothesis Hstr : forall t, P (VStr t).
  Hypothesis Harr : forall l, Forall P l -> P (VArr l).
  Hypothesis Hobj : forall m, Forall (fun kv => P (snd kv)) m -> P (VObj m).
  (** Induction over values with the induction hypothesis for every element *)
  Fixpoint value_nested (v : value) : P v :=
    match v with
    | VNull => Hnull
    | VBool b => Hbool b
    | VNum n => Hnum n
    | VStr t => Hstr t
    | VArr l => Harr l ((fix go l := match l return Forall P l with
                         | [] => Forall_nil _
                         | x :: r => Forall_cons _ (value_nested x) (go r) end) l)
    | VObj m => Hobj m ((fix go m := match m return Forall (fun kv => P (snd kv)) m with
                         | [] => Forall_nil _
                         | kv :: r => Forall_cons _ (value_nested (snd kv)) (go r) end) m)
    end.
End ValueInd.

(** Byte order of UTF-8 is code point order. *)
Fixpoint text_ltb (a b : text) : bool :=
  match a, b with
  | _, [] => false
  | [], _ :: _ => true
  | c :: a', d :: b' => (c <? d)%N || ((c =? d)%N && text_ltb a' b')
  end.
(** [Map::get], [Map::insert] *)
Fixpoint get {A} (k : text) (m : list (text * A)) : option A :=
  match m with
  | [] => None
  | (k', v) :: m' => if text_eqb k k' then Some v else get k m'
  end.
Fixpoint set {A} (k : text) (v : A) (m : list (text * A)) : list (text * A) :=
  match m with
  | [] => [(k, v)]
  | (k', v') :: m' =>
      if text_eqb k k' then (k, v) :: m'
      else if text_ltb k k' then (k, v) :: m
      else (k', v') :: set k v m'
  end.
(** [Map::extend] *)
Fixpoint set_all {A} (l m : list (text * A)) : list (text * A) :=
  match l with [] => m | (k, v) :: l' => set_all l' (set k v m) end.

(** [Number::eq]: an integer never equals a float; -0.0 equals 0.0. *)
Definition num_eqb (a b : num) : bool :=
  match a, b with
  | NInt x, NInt y => (x =? y)%Z
  | NFloat x, NFloat y => SFeqb x y
  | _, _ => false
  end.
(** [Value::eq] *)
Fixpoint value_eqb (a b : value) {struct a} : bool :=
  match a, b with
  | VNull, VNull => true
  | VBool x, VBool y => Bool.eqb x y
  | VNum x, VNum y => num_eqb x y
  | VStr x, VStr y => text_eqb x y
  | VArr l, VArr r =>
      (fix go (l r : list value) : bool :=
         match l, r with
         | [], [] => true
         | x :: l', y :: r' => value_eqb x y && go l' r'
         | _, _ => false
         end) l r
  | VObj l, VObj r =>
      (fix go (l r : list (text * value)) : bool :=
         match l, r with
         | [], [] => true
         | (k, x) :: l', (k', y) :: r' => text_eqb k k' && value_eqb x y && go l' r'
         | _, _ => false
         end) l r
  | _, _ => false
  end.

Lemma get_set_eq {A} k (v : A) m : get k (set k v m) = Some v.
Proof.
  induction m as [|[k' v'] m IH]; cbn [set].
  - cbn. now rewrite (proj2 (text_eqb_eq k k) eq_refl).
  - destruct (text_eqb k k') eqn:E; [cbn; now rewrite (proj2 (text_eqb_eq k k) eq_refl)|].
    destruct (text_ltb k k'); cbn [get]; [now rewrite (proj2 (text_eqb_eq k k) eq_refl)|]. now rewrite E.
Qed.
Lemma text_eqb_neq a b : a <> b -> text_eqb a b = false.
Proof. unfold text_eqb. destruct (text_eq_dec a b); [contradiction|reflexivity]. Qed.
Lemma text_eqb_refl a : text_eqb a a = true.
Proof. now apply text_eqb_eq. Qed.
Lemma get_set_neq {A} k k' (v : A) m : k <> k' -> get k' (set k v m) = get k' m.
Proof.
  intros Hne. assert (H1 : text_eqb k' k = false) by (apply text_eqb_neq; congruence). induction m as [|[k0 v0] m IH]; cbn [set].
  - cbn. now rewrite H1.
  - destruct (text_eqb k k0) eqn:E.
    + apply text_eqb_eq in E. subst k0. cbn. now rewrite H1.
    + destruct (text_ltb k k0); cbn [get]; [now rewrite H1|]. now rewrite IH.
Qed.

Lemma text_ltb_trans a : forall b c, text_ltb a b = true -> text_ltb b c = true -> text_ltb a c = true.
Proof.
  induction a as [|x a IH]; intros [|y b] [|z c]; cbn; try discriminate; auto. rewrite !orb_true_iff, !andb_true_iff, !N.ltb_lt, !N.eqb_eq.
  intros [H1|[-> H1]] [H2|[-> H2]]; [left; lia|left; lia|left; lia|right]. split; [reflexivity|eapply IH; eassumption].
Qed.
Lemma text_ltb_irrefl a : text_ltb a a = false.
Proof. induction a as [|x a IH]; cbn; [reflexivity|]. now rewrite N.ltb_irrefl, N.eqb_refl, IH. Qed.
Lemma text_total a : forall b, a <> b -> text_ltb a b = false -> text_ltb b a = true.
Proof.
  induction a as [|x a IH]; intros [|y b]; cbn; try congruence. intros Hne. rewrite orb_false_iff, andb_false_iff, N.ltb_ge, N.eqb_neq, orb_true_iff, andb_true_iff, N.ltb_lt, N.eqb_eq.
  intros [H1 H2]. destruct (N.eq_dec x y) as [->|Hxy]; [|left; lia]. right. split; [reflexivity|]. apply IH; [congruence|]. destruct H2; [congruence|assumption].
Qed.
(** Keys in strictly increasing order *)
Fixpoint keys_sorted {A} (m : list (text * A)) : Prop :=
  match m with
  | [] => True
  | (k, _) :: m' => (forall k' v', In (k', v') m' -> text_ltb k k' = true) /\ keys_sorted m'
  end.
Lemma set_In {A} k (v : A) m k' v' : In (k', v') (set k v m) -> (k', v') = (k, v) \/ In (k', v') m.
Proof.
  induction m as [|[k0 v0] m IH]; cbn [set]; [intros [H|[]]; auto|]. destruct (text_eqb k k0); [|destruct (text_ltb k k0)]; cbn; intros H; intuition.
Qed.
Lemma set_sorted {A} k (v : A) m : keys_sorted m -> keys_sorted (set k v m).
Proof.
  induction m as [|[k0 v0] m IH]; cbn [set]; [cbn; intuition; contradiction|]. intros [H1 H2]. destruct (text_eqb k k0) eqn:E.
  - apply text_eqb_eq in E. subst k0. split; assumption.
  - destruct (text_ltb k k0) eqn:L.
    + split; [|split; assumption]. intros k' v' [H|H]; [injection H as <- <-; exact L|]. eapply text_ltb_trans; [exact L|]. eapply H1. exact H.
    + split; [|apply IH; exact H2]. intros k' v' H. apply set_In in H. destruct H as [H|H]; [|eapply H1; exact H]. injection H as -> ->.
      apply text_total; [|exact L]. intros ->. rewrite text_eqb_refl in E. discriminate.
Qed.
Lemma set_all_sorted {A} l : forall m : list (text * A), keys_sorted m -> keys_sorted (set_all l m).
Proof. induction l as [|[k v] l IH]; cbn; [auto|]. intros m Hm. apply IH, set_sorted, Hm. Qed.
Lemma get_sorted_head {A} (m : list (text * A)) k v : keys_sorted ((k, v) :: m) -> get k m = None.
Proof.
  intros [H _]. induction m as [|[k' v'] m IH]; [reflexivity|]. cbn. destruct (text_eqb k k') eqn:E.
  - apply text_eqb_eq in E. subst k'. specialize (H k v' (or_introl eq_refl)). rewrite text_ltb_irrefl in H. discriminate.
  - apply IH. intros k0 v0 Hin. apply (H k0 v0). now right.
Qed.
Lemma get_set_all {A} l : forall m : list (text * A), keys_sorted l -> forall k, get k (set_all l m) = match get k l with Some v => Some v | None => get k m end.
Proof.
  induction l as [|[k0 v0] l IH]; cbn [set_all]; [reflexivity|]. intros m Hs k. rewrite IH by apply Hs. cbn [get]. destruct (text_eqb k k0) eqn:E.
  - apply text_eqb_eq in E. subst k0. rewrite (get_sorted_head l k v0 Hs). apply get_set_eq.
  - assert (k0 <> k) by (intros ->; rewrite text_eqb_refl in E; discriminate). now rewrite get_set_neq.
Qed.
Lemma get_In {A} k (m : list (text * A)) v : get k m = Some v -> In (k, v) m.
Proof. induction m as [|[k' v'] m IH]; cbn; [discriminate|]. destruct (text_eqb k k') eqn:E; [apply text_eqb_eq in E; subst; intros H; injection H as ->; now left|auto]. Qed.
Lemma In_get {A} k (m : list (text * A)) v : keys_sorted m -> In (k, v) m -> get k m = Some v.
Proof.
  induction m as [|[k' v'] m IH]; cbn; [contradiction|]. intros [H1 H2] [H|H].
  - injection H as -> ->. now rewrite text_eqb_refl.
  - destruct (text_eqb k k') eqn:E; [|auto]. apply text_eqb_eq in E. subst. specialize (H1 _ _ H). rewrite text_ltb_irrefl in H1. discriminate.
Qed.
(** Sorted lists with the same entries are the same list. *)
Lemma sorted_ext {A} (m : list (text * A)) : forall m', keys_sorted m -> keys_sorted m' -> (forall k, get k m = get k m') -> m = m'.
Proof.
  induction m as [|[k v] m IH]; intros [|[k' v'] m'] S1 S2 H.
  - reflexivity.
  - specialize (H k'). cbn in H. rewrite text_eqb_refl in H. discriminate.
  - specialize (H k). cbn in H. rewrite text_eqb_refl in H. discriminate.
  - assert (k = k') as <-.
    { destruct (text_eq_dec k k') as [|Hne]; [assumption|exfalso]. pose proof (H k) as Ha. pose proof (H k') as Hb. cbn in Ha, Hb. rewrite text_eqb_refl in Ha, Hb.
      rewrite (text_eqb_neq k k') in Ha by assumption. rewrite (text_eqb_neq k' k) in Hb by congruence. symmetry in Ha. apply get_In in Ha, Hb.
      pose proof (proj1 S2 _ _ Ha) as L1. pose proof (proj1 S1 _ _ Hb) as L2. pose proof (text_ltb_trans _ _ _ L1 L2) as L. rewrite text_ltb_irrefl in L. discriminate. }
    pose proof (H k) as Hk. cbn in Hk. rewrite text_eqb_refl in Hk. injection Hk as <-. f_equal. apply IH; [apply S1|apply S2|].
    intros k0. pose proof (H k0) as H0. cbn in H0. destruct (text_eqb k0 k) eqn:E; [|exact H0]. apply text_eqb_eq in E. subst k0.
    now rewrite (get_sorted_head m k v S1), (get_sorted_head m' k v S2).
Qed.
