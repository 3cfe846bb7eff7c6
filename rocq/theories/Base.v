(** Shared vocabulary of all model files: outcomes and finite maps.
    Not a model of repository code by itself. *)
From Coq Require Export String Ascii List ZArith NArith Arith Lia Bool.
Export ListNotations.
Open Scope list_scope.

(** Outcome of a call: a value, an error value, or a panic (crash of the
    calling task).  Rust [panic!], [unwrap]/[expect] on a failure, slice index
    out of range, and Go nil dereference / nil map write are all [Panic]. *)
Inductive outcome (E A : Type) : Type :=
| Ok (a : A)
| Err (e : E)
| Panic.
Arguments Ok {E A} a.
Arguments Err {E A} e.
Arguments Panic {E A}.

Definition obind {E A B} (x : outcome E A) (f : A -> outcome E B) : outcome E B :=
  match x with Ok a => f a | Err e => Err e | Panic => Panic end.
Definition omap {E A B} (f : A -> B) (x : outcome E A) : outcome E B :=
  match x with Ok a => Ok (f a) | Err e => Err e | Panic => Panic end.

Notation "'let!' x := a 'in' b" := (obind a (fun x => b))
  (at level 200, x pattern, a at level 100, b at level 200).

Definition is_ok {E A} (x : outcome E A) : bool :=
  match x with Ok _ => true | _ => false end.

(** Finite maps with string keys as association lists.  Iteration order of the
    list stands for the (arbitrary) iteration order of a HashMap. *)
Definition smap (V : Type) := list (string * V).

Fixpoint lookup {V} (k : string) (m : smap V) : option V :=
  match m with
  | [] => None
  | (k', v) :: m' => if String.eqb k k' then Some v else lookup k m'
  end.

Fixpoint remove_key {V} (k : string) (m : smap V) : smap V :=
  match m with
  | [] => []
  | (k', v) :: m' => if String.eqb k k' then remove_key k m' else (k', v) :: remove_key k m'
  end.

(** insert replaces in place when the key exists, else appends *)
Fixpoint insert {V} (k : string) (v : V) (m : smap V) : smap V :=
  match m with
  | [] => [(k, v)]
  | (k', v') :: m' => if String.eqb k k' then (k, v) :: m' else (k', v') :: insert k v m'
  end.

Definition keys {V} (m : smap V) : list string := map fst m.

Lemma lookup_insert_eq {V} k (v : V) m : lookup k (insert k v m) = Some v.
Proof.
  induction m as [|[k' v'] m IH]; simpl.
  - now rewrite String.eqb_refl.
  - destruct (String.eqb_spec k k') as [->|Hne]; simpl.
    + now rewrite String.eqb_refl.
    + destruct (String.eqb_spec k k'); [congruence|exact IH].
Qed.

Lemma lookup_insert_ne {V} k k' (v : V) m : k <> k' -> lookup k (insert k' v m) = lookup k m.
Proof.
  intros Hne. induction m as [|[k2 v2] m IH]; simpl.
  - destruct (String.eqb_spec k k'); [congruence|reflexivity].
  - destruct (String.eqb_spec k' k2) as [->|H2]; simpl.
    + destruct (String.eqb_spec k k2); [congruence|reflexivity].
    + destruct (String.eqb_spec k k2); [reflexivity|exact IH].
Qed.

Lemma lookup_insert {V} k k' (v : V) m :
  lookup k (insert k' v m) = if String.eqb k k' then Some v else lookup k m.
Proof.
  destruct (String.eqb_spec k k') as [->|H].
  - apply lookup_insert_eq.
  - now apply lookup_insert_ne.
Qed.

Lemma lookup_remove_eq {V} k (m : smap V) : lookup k (remove_key k m) = None.
Proof.
  induction m as [|[k' v'] m IH]; simpl; [reflexivity|].
  destruct (String.eqb_spec k k') as [->|Hne]; [exact IH|].
  simpl. destruct (String.eqb_spec k k'); [congruence|exact IH].
Qed.

Lemma lookup_remove_ne {V} k k' (m : smap V) : k <> k' -> lookup k (remove_key k' m) = lookup k m.
Proof.
  intros Hne. induction m as [|[k2 v2] m IH]; simpl; [reflexivity|].
  destruct (String.eqb_spec k' k2) as [->|H2]; simpl.
  - destruct (String.eqb_spec k k2); [congruence|exact IH].
  - destruct (String.eqb_spec k k2); [reflexivity|exact IH].
Qed.

Lemma lookup_remove {V} k k' (m : smap V) :
  lookup k (remove_key k' m) = if String.eqb k k' then None else lookup k m.
Proof.
  destruct (String.eqb_spec k k') as [->|H].
  - apply lookup_remove_eq.
  - now apply lookup_remove_ne.
Qed.

Lemma lookup_In {V} k (v : V) m : lookup k m = Some v -> In (k, v) m.
Proof.
  induction m as [|[k' v'] m IH]; simpl; [discriminate|].
  destruct (String.eqb_spec k k') as [->|Hne]; intros H; [left; congruence|right; auto].
Qed.

Lemma In_lookup {V} k (v : V) m : NoDup (keys m) -> In (k, v) m -> lookup k m = Some v.
Proof.
  induction m as [|[k' v'] m IH]; simpl; [tauto|].
  intros Hnd [Heq|Hin].
  - inversion Heq; subst. now rewrite String.eqb_refl.
  - inversion Hnd as [|? ? Hni Hnd']; subst.
    destruct (String.eqb_spec k k') as [->|Hne]; [|auto].
    exfalso; apply Hni. change k' with (fst (k', v)). now apply in_map.
Qed.

Lemma lookup_None {V} k (m : smap V) : lookup k m = None <-> ~ In k (keys m).
Proof.
  induction m as [|[k' v'] m IH]; simpl; [tauto|].
  destruct (String.eqb_spec k k') as [->|Hne].
  - split; [discriminate|intros H; exfalso; apply H; now left].
  - rewrite IH. split; intros H; [intros [E|E]; [congruence|tauto]|tauto].
Qed.

Lemma keys_insert {V} k (v : V) m x : In x (keys (insert k v m)) <-> x = k \/ In x (keys m).
Proof.
  induction m as [|[k' v'] m IH]; simpl; [intuition congruence|].
  destruct (String.eqb_spec k k') as [->|Hne]; simpl.
  - intuition congruence.
  - unfold keys in *. rewrite IH. tauto.
Qed.

Lemma NoDup_insert {V} k (v : V) m : NoDup (keys m) -> NoDup (keys (insert k v m)).
Proof.
  induction m as [|[k' v'] m IH]; simpl; intros H; [repeat constructor; tauto|].
  inversion H as [|? ? Hni Hnd]; subst.
  destruct (String.eqb_spec k k') as [->|Hne]; simpl; [constructor; auto|].
  constructor; [|auto].
  intros Hin. apply (keys_insert k v m k') in Hin. destruct Hin as [E|E]; [congruence|tauto].
Qed.

Lemma keys_remove {V} k (m : smap V) x : In x (keys (remove_key k m)) <-> x <> k /\ In x (keys m).
Proof.
  induction m as [|[k' v'] m IH]; simpl; [tauto|].
  destruct (String.eqb_spec k k') as [->|Hne]; simpl; unfold keys in *; rewrite IH;
    intuition congruence.
Qed.

Lemma NoDup_remove_key {V} k (m : smap V) : NoDup (keys m) -> NoDup (keys (remove_key k m)).
Proof.
  induction m as [|[k' v'] m IH]; simpl; intros H; [constructor|].
  inversion H as [|? ? Hni Hnd]; subst.
  destruct (String.eqb_spec k k') as [->|Hne]; simpl; [auto|].
  constructor; [|auto]. intros Hin. apply (keys_remove k m k') in Hin. tauto.
Qed.

(** ** Histories *)

(** [v] is the value given by the last element of [os] to which [f] assigns one. *)
Definition last_assigned {O V} (f : O -> option V) (os : list O) (v : V) : Prop :=
  exists pre o post, os = (pre ++ o :: post)%list /\ f o = Some v /\ forall o', In o' post -> f o' = None.

Fixpoint last_value {O V} (f : O -> option V) (init : option V) (os : list O) : option V :=
  match os with
  | [] => init
  | o :: os' => last_value f (match f o with Some v => Some v | None => init end) os'
  end.

Lemma last_value_app {O V} (f : O -> option V) a : forall i b,
  last_value f i (a ++ b)%list = last_value f (last_value f i a) b.
Proof. induction a; intros; cbn; [reflexivity|apply IHa]. Qed.

Lemma last_value_none {O V} (f : O -> option V) os : forall i,
  (forall o, In o os -> f o = None) -> last_value f i os = i.
Proof.
  induction os as [|o os IH]; intros i H; cbn; [reflexivity|].
  rewrite (H o) by (left; reflexivity). apply IH. intros; apply H; now right.
Qed.

Lemma last_value_assigned {O V} (f : O -> option V) os v :
  last_value f None os = Some v <-> last_assigned f os v.
Proof.
  induction os as [|o os IH] using rev_ind.
  - split; [discriminate|]. intros (pre & o & post & H & _). destruct pre; discriminate.
  - rewrite last_value_app. cbn. destruct (f o) as [w|] eqn:E.
    + split.
      * intros H; inversion H; subst. exists os, o, []. repeat split; auto. intros o' [].
      * intros (pre & o1 & post & H & Hf & Hn). f_equal.
        destruct post as [|o2 post _] using rev_ind.
        { apply app_inj_tail in H. destruct H as [_ <-]. congruence. }
        { rewrite app_comm_cons, app_assoc in H. apply app_inj_tail in H. destruct H as [_ <-].
          rewrite Hn in E; [discriminate|]. apply in_or_app; right; left; reflexivity. }
    + rewrite IH. split.
      * intros (pre & o1 & post & -> & Hf & Hn). exists pre, o1, (post ++ [o])%list.
        rewrite <- app_assoc. repeat split; auto.
        intros o' Ho. apply in_app_or in Ho. destruct Ho as [Ho|[<-|[]]]; auto.
      * intros (pre & o1 & post & H & Hf & Hn).
        destruct post as [|o2 post _] using rev_ind.
        { apply app_inj_tail in H. destruct H as [_ <-]. congruence. }
        { rewrite app_comm_cons, app_assoc in H. apply app_inj_tail in H. destruct H as [-> <-].
          exists pre, o1, post. repeat split; auto. intros o' Ho. apply Hn. apply in_or_app; auto. }
Qed.

Lemma NoDup_app_l {A} (l r : list A) : NoDup (l ++ r)%list -> NoDup l.
Proof.
  induction l as [|x l IH]; intros H; [constructor|]. cbn in H. inversion H as [|? ? Hx Hl]; subst.
  constructor; [intros Hin; apply Hx; apply in_or_app; auto|auto].
Qed.

Lemma Forall2_len {A B} (R : A -> B -> Prop) l1 l2 : Forall2 R l1 l2 -> length l1 = length l2.
Proof. induction 1; cbn; congruence. Qed.
