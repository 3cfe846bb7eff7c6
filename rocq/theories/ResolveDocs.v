(** Documents read as JSON and as YAML. *)
From Verif Require Import Base Chars SubstModel SubstSafe ResolveModel ResolveSpec ResolveProofs.
Local Open Scope list_scope.

Section Params.
Variable F : Type.
Variable parse_f64 : text -> option F.
Variable env : text -> option text.
Variable k : classes.
Hypothesis Hk : sane k.
Variable json_text : text -> option text.
Notation yaml_node := (yaml_node F k).
Notation json_node := (json_node F k json_text).
Notation resolve_node := (resolve_node F parse_f64 env).

Lemma doc_induction (P : doc F -> Prop) :
  (forall t, P (DStr F t)) -> (forall z, P (DInt F z)) -> (forall f, P (DFloat F f)) -> (forall b, P (DBool F b)) -> P (DNull F) ->
  (forall l, Forall P l -> P (DSeq F l)) -> (forall m, Forall (fun e => P (snd e)) m -> P (DMap F m)) -> forall d, P d.
Proof.
  intros H1 H2 H3 H4 H5 H6 H7. fix IH 1. intros d. destruct d as [t|z|f|b| |l|m].
  - apply H1.
  - apply H2.
  - apply H3.
  - apply H4.
  - exact H5.
  - apply H6. induction l as [|v l IHl]; constructor; [apply IH|exact IHl].
  - apply H7. induction m as [|[key v] m IHm]; constructor; [apply IH|exact IHm].
Qed.

Definition seq_read (f : doc F -> outcome read_error (node F)) := fix go (l : list (doc F)) := match l with
  | [] => Ok [] | v :: l' => let! r := f v in let! rs := go l' in Ok (r :: rs) end.
Definition map_read (f : doc F -> outcome read_error (node F)) := fix go (l : list (text * doc F)) := match l with
  | [] => Ok [] | (key, v) :: l' => let! r := f v in let! rs := go l' in Ok ((key, r) :: rs) end.
Lemma yaml_seq l : yaml_node (DSeq F l) = omap (NSeq F) (seq_read yaml_node l). Proof. reflexivity. Qed.
Lemma yaml_map m : yaml_node (DMap F m) = omap (NMap F) (map_read yaml_node m). Proof. reflexivity. Qed.
Lemma json_seq l : json_node (DSeq F l) = omap (NSeq F) (seq_read json_node l). Proof. reflexivity. Qed.
Lemma json_map m : json_node (DMap F m) = omap (NMap F) (map_read json_node m). Proof. reflexivity. Qed.

Definition good (o : outcome read_error (node F)) : Prop :=
  match o with Ok n => proper F n | Err _ => True | Panic => False end.
Lemma seq_good f l : Forall (fun v => good (f v)) l -> good (omap (NSeq F) (seq_read f l)).
Proof.
  assert (A : Forall (fun v => good (f v)) l -> match seq_read f l with Ok ns => Forall (proper F) ns | Err _ => True | Panic => False end).
  { induction 1 as [|v l Hv _ IH]; [constructor|]. cbn [seq_read]. unfold good in Hv. destruct (f v) as [n|e|]; cbn [obind]; [|exact I|exact Hv].
    fold (seq_read f). destruct (seq_read f l) as [ns|e|]; cbn [obind]; [|exact I|exact IH]. constructor; assumption. }
  intros H. specialize (A H). destruct (seq_read f l) as [ns|e|]; cbn; auto. intros d Ho. inversion Ho; subst.
  rewrite Forall_forall in A. eapply A; eassumption.
Qed.
Lemma map_good f m : Forall (fun e => good (f (snd e))) m -> good (omap (NMap F) (map_read f m)).
Proof.
  assert (A : Forall (fun e => good (f (snd e))) m -> match map_read f m with Ok ns => Forall (fun e => proper F (snd e)) ns | Err _ => True | Panic => False end).
  { induction 1 as [|[key v] m Hv _ IH]; [constructor|]. cbn [map_read]. unfold good in Hv. cbn [snd] in Hv. destruct (f v) as [n|e|]; cbn [obind]; [|exact I|exact Hv].
    fold (map_read f). destruct (map_read f m) as [ns|e|]; cbn [obind]; [|exact I|exact IH]. constructor; assumption. }
  intros H. specialize (A H). destruct (map_read f m) as [ns|e|]; cbn; auto. intros d Ho. inversion Ho; subst.
  rewrite Forall_forall in A. match goal with X : In (?a, ?b) ns |- _ => specialize (A (a, b) X) end. eapply A; eassumption.
Qed.
Lemma scalar_proper s : proper F (NScalar F s).
Proof. intros d Ho. inversion Ho. Qed.
Lemma sub_proper ps : ps <> [] -> proper F (NSub F ps).
Proof. intros H d Ho. inversion Ho; subst. now elim H. Qed.
Lemma parse_nonempty t : match parse_substitutions k t with Ok ps => ps <> [] | Err _ => True | Panic => False end.
Proof. pose proof (parse_safe k Hk t) as P. destruct (parse_substitutions k t); tauto. Qed.

Lemma yaml_good d : good (yaml_node d).
Proof.
  induction d as [t|z|f|b| |l IH|m IH] using doc_induction; try (cbn; apply scalar_proper).
  - cbn. pose proof (parse_nonempty t) as P. destruct (parse_substitutions k t); cbn; auto. now apply sub_proper.
  - exact I.
  - rewrite yaml_seq. now apply seq_good.
  - rewrite yaml_map. now apply map_good.
Qed.
Lemma json_good d : good (json_node d).
Proof.
  induction d as [t|z|f|b| |l IH|m IH] using doc_induction; try (cbn; apply scalar_proper).
  - cbn. unfold json_string_node. destruct (json_text t) as [u|]; [|apply scalar_proper].
    pose proof (parse_nonempty u) as P. destruct (parse_substitutions k u); cbn; auto; [now apply sub_proper|apply scalar_proper].
  - exact I.
  - rewrite json_seq. now apply seq_good.
  - rewrite json_map. now apply map_good.
Qed.

(** Nodes that differ only in how a plain text is represented *)
Inductive same : node F -> node F -> Prop :=
| sm_refl n : same n n
| sm_text t : same (NSub F [Lit t]) (NScalar F (SStr F t))
| sm_seq l l' : Forall2 same l l' -> same (NSeq F l) (NSeq F l')
| sm_map m m' : Forall2 (fun a b => fst a = fst b /\ same (snd a) (snd b)) m m' -> same (NMap F m) (NMap F m').

Lemma same_resolve n : forall n' d, same n n' -> resolve_node d n = resolve_node d n'.
Proof.
  induction n as [s| |ps|l IH|m IH] using (node_induction F); intros n' d H; inversion H as [x| | l1 l2 Hl| m1 m2 Hm]; subst; try reflexivity.
  - rewrite !node_seq. destruct (Nat.ltb _ _); [reflexivity|]. f_equal. clear H.
    induction Hl as [|a b l l' Hab _ IHl]; [reflexivity|]. inversion IH as [|x y Ha Hr]; subst. cbn [seq_go]. rewrite (Ha _ _ Hab).
    destruct (resolve_node (d + 1) b); cbn [obind]; try reflexivity. fold (seq_go F parse_f64 env d). now rewrite (IHl Hr).
  - rewrite !node_map. destruct (Nat.ltb _ _); [reflexivity|]. f_equal. clear H.
    induction Hm as [|[ka a] [kb b] l l' Hab _ IHl]; [reflexivity|]. inversion IH as [|x y Ha Hr]; subst. cbn [fst snd] in *. destruct Hab as [-> Hab]. cbn [map_go]. rewrite (Ha _ _ Hab).
    destruct (resolve_node (d + 1) b); cbn [obind]; try reflexivity. fold (map_go F parse_f64 env d). now rewrite (IHl Hr).
Qed.

Definition agree (a b : outcome read_error (node F)) : Prop :=
  match a, b with Ok n, Ok n' => same n n' | Err e, Err e' => e = e' | _, _ => False end.
Lemma json_int_small z : (- 2 ^ 63 <= z < 2 ^ 63)%Z -> json_int z = z.
Proof. intros H. unfold json_int. now rewrite (proj2 (Z.ltb_lt _ _)) by apply H. Qed.
Lemma formats_agree d :
  (forall t, string_in F t d -> contains (chars "${") t = false /\ json_text t = None) ->
  (forall z, int_in F z d -> (- 2 ^ 63 <= z < 2 ^ 63)%Z) ->
  agree (yaml_node d) (json_node d).
Proof.
  induction d as [t|z|f|b| |l IH|m IH] using doc_induction; intros Ht Hz; try (cbn; constructor).
  - destruct (Ht t (si_here F t)) as [H1 H2]. cbn. unfold json_string_node, parse_substitutions. change open_sub with (chars "${"). rewrite H1, H2. cbn. constructor.
  - cbn -[json_int]. rewrite json_int_small by (apply Hz; constructor). constructor.
  - rewrite yaml_seq, json_seq.
    assert (A : match seq_read yaml_node l, seq_read json_node l with Ok a, Ok b => Forall2 same a b | Err e, Err e' => e = e' | _, _ => False end).
    { induction IH as [|v l Hv _ IHl]; [constructor|]. cbn [seq_read].
      assert (Av : agree (yaml_node v) (json_node v)). { apply Hv; [intros t Hs; apply Ht; econstructor; [now left|exact Hs]|intros z Hi; apply Hz; econstructor; [now left|exact Hi]]. }
      assert (Al : match seq_read yaml_node l, seq_read json_node l with Ok a, Ok b => Forall2 same a b | Err e, Err e' => e = e' | _, _ => False end).
      { apply IHl; [intros t Hs; apply Ht; inversion Hs; subst; econstructor; [right; eassumption|assumption]|intros z Hi; apply Hz; inversion Hi; subst; econstructor; [right; eassumption|assumption]]. }
      unfold agree in Av. destruct (yaml_node v), (json_node v); cbn [obind]; try contradiction; [|exact Av].
      fold (seq_read yaml_node). fold (seq_read json_node). destruct (seq_read yaml_node l), (seq_read json_node l); cbn [obind]; try contradiction; [|exact Al]. constructor; assumption. }
    unfold agree. destruct (seq_read yaml_node l), (seq_read json_node l); cbn [omap]; try contradiction; [|exact A]. now constructor.
  - rewrite yaml_map, json_map.
    assert (A : match map_read yaml_node m, map_read json_node m with Ok a, Ok b => Forall2 (fun a b => fst a = fst b /\ same (snd a) (snd b)) a b | Err e, Err e' => e = e' | _, _ => False end).
    { induction IH as [|[key v] m Hv _ IHl]; [constructor|]. cbn [map_read]. cbn [snd] in Hv.
      assert (Av : agree (yaml_node v) (json_node v)). { apply Hv; [intros t Hs; apply Ht; econstructor; [left; reflexivity|exact Hs]|intros z Hi; apply Hz; econstructor; [left; reflexivity|exact Hi]]. }
      assert (Al : match map_read yaml_node m, map_read json_node m with Ok a, Ok b => Forall2 (fun a b => fst a = fst b /\ same (snd a) (snd b)) a b | Err e, Err e' => e = e' | _, _ => False end).
      { apply IHl; [intros t Hs; apply Ht; inversion Hs; subst; econstructor; [right; eassumption|assumption]|intros z Hi; apply Hz; inversion Hi; subst; econstructor; [right; eassumption|assumption]]. }
      unfold agree in Av. destruct (yaml_node v), (json_node v); cbn [obind]; try contradiction; [|exact Av].
      fold (map_read yaml_node). fold (map_read json_node). destruct (map_read yaml_node m), (map_read json_node m); cbn [obind]; try contradiction; [|exact Al]. constructor; [split; [reflexivity|assumption]|assumption]. }
    unfold agree. destruct (map_read yaml_node m), (map_read json_node m); cbn [omap]; try contradiction; [|exact A]. now constructor.
Qed.
End Params.
