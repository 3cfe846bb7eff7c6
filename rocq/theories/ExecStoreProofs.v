From Verif Require Import Base Json WfTypes ExecStoreModel ExecStoreSpec.
Local Open Scope list_scope.

Lemma run_snoc xs x : store_run (xs ++ [x]) = store_apply (store_run xs) x.
Proof. unfold store_run. now rewrite fold_left_app. Qed.

Lemma run_lookup xs id :
  lookup id (st_executions (store_run xs)) =
  match last_value (saved_under id) None xs with Some p => Some (stored id p) | None => None end.
Proof.
  induction xs as [|x xs IH] using rev_ind; [reflexivity|].
  rewrite run_snoc, last_value_app. destruct x as [id' p|id']; cbn.
  - rewrite lookup_insert. destruct (String.eqb_spec id id') as [->|]; [reflexivity|exact IH].
  - unfold save_push. destruct (existsb _ _); cbn; exact IH.
Qed.

Lemma get_spec xs id e :
  get_execution (store_run xs) id = Ok e <->
  exists p, last_assigned (saved_under id) xs p /\ e = stored id p.
Proof.
  unfold get_execution. rewrite run_lookup.
  destruct (last_value (saved_under id) None xs) as [p|] eqn:E.
  - split.
    + intros H; inversion H; subst. exists p. split; [now apply last_value_assigned|reflexivity].
    + intros (p' & H & ->). apply last_value_assigned in H. congruence.
  - split; [discriminate|]. intros (p' & H & _). apply last_value_assigned in H. congruence.
Qed.

Lemma get_not_found xs id :
  (forall p, ~ In (SInsert id p) xs) -> get_execution (store_run xs) id = Err id.
Proof.
  intros H. unfold get_execution. rewrite run_lookup.
  rewrite last_value_none; [reflexivity|]. intros [id' p|id'] Hin; [|reflexivity]. cbn.
  destruct (String.eqb_spec id id') as [->|]; [|reflexivity]. exfalso. eapply H; eauto.
Qed.

Lemma get_other s id id' p : id <> id' ->
  get_execution (save s id p) id' = get_execution s id'.
Proof.
  intros H. unfold save, save_push, get_execution. cbn.
  destruct (existsb _ _); cbn; rewrite lookup_insert_ne; auto.
Qed.

Lemma first_seen_snoc l x :
  first_seen (l ++ [x]) = if existsb (String.eqb x) l then first_seen l else first_seen l ++ [x].
Proof.
  induction l as [|y l IH]; [reflexivity|]. cbn [app first_seen existsb].
  rewrite IH. rewrite String.eqb_sym. destruct (String.eqb_spec y x) as [->|Hne]; cbn [orb].
  - destruct (existsb (String.eqb x) l); [reflexivity|].
    rewrite filter_app. cbn. rewrite String.eqb_refl. cbn. now rewrite app_nil_r.
  - destruct (existsb (String.eqb x) l); [reflexivity|].
    rewrite filter_app. cbn. destruct (String.eqb_spec y x); [congruence|]. reflexivity.
Qed.

Lemma first_seen_In l x : In x (first_seen l) <-> In x l.
Proof.
  induction l as [|y l IH]; [reflexivity|]. cbn. rewrite filter_In, IH.
  destruct (String.eqb_spec y x) as [->|]; cbn; intuition congruence.
Qed.

Lemma NoDup_filter {A} (f : A -> bool) l : NoDup l -> NoDup (filter f l).
Proof. apply List.NoDup_filter. Qed.

Lemma first_seen_NoDup l : NoDup (first_seen l).
Proof.
  induction l as [|x l IH]; [constructor|]. cbn. constructor; [|now apply NoDup_filter].
  rewrite filter_In. rewrite String.eqb_refl. intros [_ H]. discriminate.
Qed.

Lemma run_ids xs : st_ids_in_order (store_run xs) = first_seen (completed_ids xs).
Proof.
  induction xs as [|x xs IH] using rev_ind; [reflexivity|].
  assert (Hc : forall a b, completed_ids (a ++ b) = completed_ids a ++ completed_ids b).
  { induction a as [|[? ?|?] a IHa]; intros b; cbn; rewrite ?IHa; reflexivity. }
  rewrite run_snoc, Hc. destruct x as [id p|id]; cbn.
  - now rewrite app_nil_r.
  - rewrite first_seen_snoc. unfold save_push. rewrite IH.
    assert (Hex : existsb (String.eqb id) (first_seen (completed_ids xs)) = existsb (String.eqb id) (completed_ids xs)).
    { apply eq_true_iff_eq. rewrite !existsb_exists. setoid_rewrite first_seen_In. reflexivity. }
    rewrite Hex. destruct (existsb _ (completed_ids xs)); [exact IH|reflexivity].
Qed.

Lemma completed_inserted xs id : well_formed xs -> In id (completed_ids xs) ->
  exists e, get_execution (store_run xs) id = Ok e.
Proof.
  intros Hwf Hin.
  assert (Hs : exists pre post, xs = pre ++ SPush id :: post).
  { revert Hin. clear. induction xs as [|[? ?|i] xs IH]; cbn; [intros []| |].
    - intros H. destruct (IH H) as (pre & post & ->). exists (SInsert id0 p :: pre), post. reflexivity.
    - intros [->|H]; [exists [], xs; reflexivity|]. destruct (IH H) as (pre & post & ->).
      exists (SPush i :: pre), post. reflexivity. }
  destruct Hs as (pre & post & Hs). destruct (Hwf _ _ _ Hs) as (p & Hp).
  unfold get_execution. rewrite run_lookup.
  destruct (last_value (saved_under id) None xs) as [q|] eqn:E; [eauto|].
  exfalso. assert (G : forall ys i, In (SInsert id p) ys -> last_value (saved_under id) i ys <> None).
  { clear. induction ys as [|y ys IH]; intros i Hy; [destruct Hy|]. cbn.
    assert (Hsome : forall zs j, j <> None -> last_value (saved_under id) j zs <> None).
    { clear. induction zs as [|z zs IHz]; intros j Hj; cbn; [exact Hj|]. apply IHz. destruct (saved_under id z); [discriminate|exact Hj]. }
    destruct Hy as [->|Hy]; [|now apply IH]. cbn. rewrite String.eqb_refl. apply Hsome. discriminate. }
  apply (G xs None); [|exact E]. rewrite Hs. apply in_or_app; auto.
Qed.

Lemma latest_size (ids : list string) limit :
  rev (firstn (if (N.of_nat (length ids) <? limit)%N then length ids else N.to_nat limit) (rev ids))
  = skipn (length ids - N.to_nat limit) ids.
Proof.
  rewrite firstn_rev, rev_involutive.
  destruct (N.ltb_spec (N.of_nat (length ids)) limit).
  - replace (length ids - N.to_nat limit) with 0 by lia. now rewrite Nat.sub_diag.
  - reflexivity.
Qed.

Lemma latest_spec xs limit : well_formed xs ->
  Forall2 (fun id e => get_execution (store_run xs) id = Ok e)
    (let d := first_seen (completed_ids xs) in skipn (length d - N.to_nat limit) d)
    (get_latest (store_run xs) limit).
Proof.
  intros Hwf. unfold get_latest. cbv zeta. rewrite latest_size, run_ids.
  set (d := first_seen (completed_ids xs)).
  assert (Hall : forall id, In id (skipn (length d - N.to_nat limit) d) ->
                 exists e, get_execution (store_run xs) id = Ok e).
  { intros id Hin. apply completed_inserted; [exact Hwf|]. apply first_seen_In. fold d.
    rewrite <- (firstn_skipn (length d - N.to_nat limit) d). apply in_or_app; auto. }
  induction (skipn (length d - N.to_nat limit) d) as [|i l IH]; [constructor|].
  cbn. destruct (Hall i) as [e He]; [now left|]. pose proof He as He'.
  unfold get_execution in He'. destruct (lookup i _); inversion He'; subst. cbn.
  constructor; [exact He|]. apply IH. intros j Hj. apply Hall. now right.
Qed.

Lemma latest_length xs limit : well_formed xs ->
  length (get_latest (store_run xs) limit) =
  Nat.min (N.to_nat limit) (length (first_seen (completed_ids xs))).
Proof.
  intros H. apply latest_spec with (limit := limit) in H. apply Forall2_len in H.
  rewrite <- H. cbv zeta. rewrite skipn_length. lia.
Qed.

Lemma sequential_well_formed saves : well_formed (sequential saves).
Proof.
  unfold well_formed. induction saves as [|[i p] saves IH]; intros pre id post H; cbn in H.
  - destruct pre; discriminate.
  - destruct pre as [|a [|b pre]]; cbn in H; inversion H; subst.
    + exists p. now left.
    + match goal with E : _ = _ |- _ => destruct (IH _ _ _ E) as (q & Hq) end. exists q. right; right; exact Hq.
Qed.

Lemma sequential_ids saves : completed_ids (sequential saves) = map fst saves.
Proof. induction saves as [|[i p] saves IH]; cbn; [reflexivity|now rewrite <- IH]. Qed.

Lemma output_never_stored xs id e : get_execution (store_run xs) id = Ok e -> we_output e = None.
Proof. intros H. apply get_spec in H. destruct H as (p & _ & ->). reflexivity. Qed.
