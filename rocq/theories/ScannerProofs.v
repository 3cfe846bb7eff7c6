From Verif Require Import Base Chars ScannerModel ScannerSpec.
Local Open Scope nat_scope.
Local Open Scope list_scope.

Definition valid (s : scanner) : Prop :=
  sc_pos s <= length (sc_chars s) /\ Forall (fun p => p <= length (sc_chars s)) (sc_stack s).

Lemma scan_loop_bounds {T} (cb : text -> option (scan_action T)) rest : forall seq req rq pos r p,
  scan_loop cb seq req rq pos rest = (r, p) -> pos <= p <= pos + length rest.
Proof.
  induction rest as [|c rest IH]; intros seq req rq pos r p; cbn.
  - destruct req; intros H; inversion H; lia.
  - destruct (cb (seq ++ [c])) as [[t| |t]|].
    + intros H. apply IH in H. lia.
    + intros H. apply IH in H. lia.
    + intros H. inversion H. lia.
    + destruct req; intros H; inversion H; lia.
Qed.

Lemma skipn_length_le {A} n (l : list A) : length (skipn n l) = length l - n.
Proof. apply skipn_length. Qed.

Lemma nth_pos (l : text) p c : nth_error l p = Some c -> p + 1 <= length l.
Proof. intros H. assert (p < length l) by (apply nth_error_Some; congruence). lia. Qed.

Lemma apply_valid o s : valid s -> valid (apply o s) /\ sc_chars (apply o s) = sc_chars s.
Proof.
  intros [Hp Hs]. unfold valid. destruct o; cbn.
  - split; [split; [exact Hp|constructor; assumption]|reflexivity].
  - split; [split; [exact Hp|]|reflexivity]. destruct (sc_stack s); [constructor|]. now inversion Hs.
  - unfold backtrack. destruct (sc_stack s) as [|p st] eqn:E; [rewrite E; auto|]. inversion Hs; subst. cbn. auto.
  - auto.
  - unfold pop. destruct (nth_error _ _) eqn:E; cbn; [apply nth_pos in E|]; auto.
  - unfold take. destruct (nth_error _ _) eqn:E; [|auto]. apply nth_pos in E. destruct (N.eqb _ _); cbn; auto.
  - unfold transform. destruct (nth_error _ _) eqn:E; [|auto]. apply nth_pos in E. destruct (cb n); cbn; auto.
  - unfold scan. destruct (scan_loop _ _ _ _ _ _) as [r p] eqn:E. apply scan_loop_bounds in E. rewrite skipn_length_le in E.
    cbn. split; [split; [lia|exact Hs]|reflexivity].
Qed.
Lemma run_ops_app a b s : run_ops (a ++ b) s = run_ops b (run_ops a s).
Proof. apply fold_left_app. Qed.
Lemma run_valid ops : forall s, valid s -> valid (run_ops ops s) /\ sc_chars (run_ops ops s) = sc_chars s.
Proof.
  induction ops as [|o ops IH]; intros s Hv; [auto|]. destruct (apply_valid o s Hv) as [V E].
  destruct (IH _ V) as [V2 E2]. change (run_ops (o :: ops) s) with (run_ops ops (apply o s)). split; [exact V2|congruence].
Qed.

Lemma at_pos_stack s p : sc_stack (at_pos s p) = sc_stack s. Proof. reflexivity. Qed.
Lemma plain_stack o s : o <> OSave -> o <> OPopPos -> o <> OBacktrack -> sc_stack (apply o s) = sc_stack s.
Proof.
  intros H1 H2 H3. destruct o; try contradiction; cbn; auto.
  - unfold pop. destruct (nth_error _ _); reflexivity.
  - unfold take. destruct (nth_error _ _); [destruct (N.eqb _ _)|]; reflexivity.
  - unfold transform. destruct (nth_error _ _); [destruct (cb _)|]; reflexivity.
  - unfold scan. destruct (scan_loop _ _ _ _ _ _); reflexivity.
Qed.

Lemma nested_stack ops : nested ops -> forall s, sc_stack (run_ops ops s) = sc_stack s.
Proof.
  induction 1 as [|o ops H1 H2 H3 _ IH|inner o ops _ IHi Ho _ IH]; intros s.
  - reflexivity.
  - cbn. change (fold_left _ ops (apply o s)) with (run_ops ops (apply o s)). rewrite IH. now apply plain_stack.
  - change (OSave :: inner ++ o :: ops) with ([OSave] ++ inner ++ [o] ++ ops). rewrite !run_ops_app, IH. cbn [run_ops fold_left].
    change (fold_left (fun s o => apply o s) inner (apply OSave s)) with (run_ops inner (save_pos s)).
    pose proof (IHi (save_pos s)) as E. cbn in E. destruct Ho as [-> | ->]; cbn.
    + now rewrite E.
    + unfold backtrack. now rewrite E.
Qed.

Lemma backtrack_restores ops s : valid s -> nested ops -> run_ops (OSave :: ops ++ [OBacktrack]) s = s.
Proof.
  intros Hv Hn. change (OSave :: ops ++ [OBacktrack]) with ([OSave] ++ ops ++ [OBacktrack]). rewrite !run_ops_app. cbn [run_ops fold_left].
  pose proof (nested_stack ops Hn (save_pos s)) as E.
  destruct (run_valid ops (save_pos s)) as [_ C]. { split; [exact (proj1 Hv)|]. constructor; [exact (proj1 Hv)|exact (proj2 Hv)]. }
  change (fold_left (fun s0 o => apply o s0) ops (apply OSave s)) with (run_ops ops (save_pos s)).
  cbn. unfold backtrack. rewrite E. cbn. rewrite C. destruct s; reflexivity.
Qed.

Lemma skipn_add {A} n m (l : list A) : skipn n (skipn m l) = skipn (m + n) l.
Proof. revert l. induction m as [|m IH]; intros l; [reflexivity|]. destruct l; [now rewrite !skipn_nil|]. apply IH. Qed.
Lemma remaining_suffix s p : sc_pos s <= p -> is_suffix (remaining (at_pos s p)) (remaining s).
Proof.
  intros H. unfold is_suffix, remaining. cbn. exists (firstn (p - sc_pos s) (skipn (sc_pos s) (sc_chars s))).
  rewrite <- (firstn_skipn (p - sc_pos s) (skipn (sc_pos s) (sc_chars s))) at 1. f_equal.
  rewrite skipn_add. f_equal. lia.
Qed.
Lemma suffix_refl a : is_suffix a a. Proof. exists []. reflexivity. Qed.

(** Reading operations only go forward. *)
Lemma read_forward o s : o <> OSave -> o <> OPopPos -> o <> OBacktrack ->
  sc_pos s <= sc_pos (apply o s) /\ is_suffix (remaining (apply o s)) (remaining s).
Proof.
  intros H1 H2 H3. destruct o; try contradiction; cbn [apply snd].
  - split; [lia|apply suffix_refl].
  - unfold pop. destruct (nth_error _ _); cbn [apply snd at_pos sc_pos]; split; try apply suffix_refl; try (apply remaining_suffix); lia.
  - unfold take. destruct (nth_error _ _); [destruct (N.eqb _ _)|]; cbn [apply snd at_pos sc_pos]; split; try apply suffix_refl; try (apply remaining_suffix); lia.
  - unfold transform. destruct (nth_error _ _); [destruct (cb _)|]; cbn [apply snd at_pos sc_pos]; split; try apply suffix_refl; try (apply remaining_suffix); lia.
  - unfold scan. destruct (scan_loop _ _ _ _ _ _) as [r p] eqn:E. apply scan_loop_bounds in E. cbn. split; [lia|]. apply remaining_suffix. lia.
Qed.

(** A scan without a match does not move; a matching scan returns what the callback said
    about exactly the consumed text. *)
Lemma scan_loop_some {T} (cb : text -> option (scan_action T)) rest : forall seq req rq pos p,
  (req = true \/ rq <> None) -> scan_loop cb seq req rq pos rest <> (inl None, p).
Proof.
  induction rest as [|c rest IH]; intros seq req rq pos p Hk; cbn.
  - destruct req; [discriminate|]. destruct Hk as [?|Hk]; [discriminate|]. intros H. inversion H. auto.
  - destruct (cb (seq ++ [c])) as [[t| |t]|].
    + apply IH. right. discriminate.
    + apply IH. now left.
    + discriminate.
    + destruct req; [discriminate|]. destruct Hk as [?|Hk]; [discriminate|]. intros H. inversion H. auto.
Qed.
Lemma scan_none {T} (cb : text -> option (scan_action T)) s : fst (scan cb s) = inl None -> snd (scan cb s) = s.
Proof.
  unfold scan. destruct (skipn (sc_pos s) (sc_chars s)) as [|c rest]; cbn.
  - intros _. destruct s; reflexivity.
  - destruct (cb [c]) as [[t| |t]|].
    + destruct (scan_loop _ _ _ _ _ _) as [r p] eqn:E. cbn. intros ->. exfalso. eapply scan_loop_some; [|exact E]. right. discriminate.
    + destruct (scan_loop _ _ _ _ _ _) as [r p] eqn:E. cbn. intros ->. exfalso. eapply scan_loop_some; [|exact E]. now left.
    + discriminate.
    + intros _. destruct s; reflexivity.
Qed.

Definition says {T} (cb : text -> option (scan_action T)) (seq : text) (t : T) : Prop :=
  cb seq = Some (Request t) \/ cb seq = Some (Return t).
Lemma scan_loop_match {T} (cb : text -> option (scan_action T)) rest : forall seq req rq pos t p,
  (forall u, req = false -> rq = Some u -> says cb seq u) ->
  scan_loop cb seq req rq pos rest = (inl (Some t), p) ->
  says cb (seq ++ firstn (p - pos) rest) t.
Proof.
  induction rest as [|c rest IH]; intros seq req rq pos t p Hk; cbn.
  - destruct req; intros H; inversion H; subst. rewrite firstn_nil, app_nil_r. now apply Hk.
  - destruct (cb (seq ++ [c])) as [[u| |u]|] eqn:Ec; intros H.
    + pose proof (scan_loop_bounds cb rest _ _ _ _ _ _ H) as B. apply IH in H.
      * replace (p - pos) with (S (p - (pos + 1))) by lia. cbn. rewrite <- app_assoc in H. exact H.
      * intros v _ Hv. inversion Hv; subst. now left.
    + pose proof (scan_loop_bounds cb rest _ _ _ _ _ _ H) as B. apply IH in H; [|discriminate].
      replace (p - pos) with (S (p - (pos + 1))) by lia. cbn. rewrite <- app_assoc in H. exact H.
    + inversion H; subst. replace (pos + 1 - pos) with 1 by lia. cbn. now right.
    + destruct req; inversion H; subst. replace (p - p) with 0 by lia. cbn. rewrite app_nil_r. now apply Hk.
Qed.
Lemma scan_match {T} (cb : text -> option (scan_action T)) s t : fst (scan cb s) = inl (Some t) ->
  exists consumed, remaining s = consumed ++ remaining (snd (scan cb s)) /\ says cb consumed t.
Proof.
  unfold scan. destruct (scan_loop _ _ _ _ _ _) as [r p] eqn:E. cbn. intros ->.
  pose proof (scan_loop_bounds cb _ _ _ _ _ _ _ E) as B. apply scan_loop_match in E; [|discriminate].
  eexists. split; [|exact E]. unfold remaining. cbn.
  rewrite <- (firstn_skipn (p - sc_pos s) (skipn (sc_pos s) (sc_chars s))) at 1. f_equal.
  rewrite skipn_add. f_equal. lia.
Qed.
Lemma peek_remaining s : peek s = hd_error (remaining s).
Proof. unfold peek, remaining. generalize (sc_chars s), (sc_pos s). intros l n. revert l. induction n as [|n IH]; intros [|c l]; cbn; auto. Qed.
Lemma rest_step s c : peek s = Some c -> remaining s = c :: remaining (at_pos s (sc_pos s + 1)).
Proof.
  unfold peek, remaining. cbn. generalize (sc_chars s), (sc_pos s). intros l n. revert l.
  induction n as [|n IH]; intros [|d l]; cbn; try discriminate.
  - intros H. inversion H. reflexivity.
  - intros H. apply IH in H. exact H.
Qed.
Lemma pop_reads s : match remaining s with
                    | c :: rest => fst (pop s) = Some c /\ remaining (snd (pop s)) = rest
                    | [] => fst (pop s) = None /\ snd (pop s) = s
                    end.
Proof.
  pose proof (peek_remaining s) as P. unfold pop. fold (peek s). destruct (peek s) as [c|] eqn:E.
  - rewrite (rest_step s c E). cbn. auto.
  - destruct (remaining s); [cbn; auto|discriminate].
Qed.
Lemma take_reads c s : match remaining s with
                       | d :: rest => if N.eqb c d then fst (take c s) = true /\ remaining (snd (take c s)) = rest
                                      else fst (take c s) = false /\ snd (take c s) = s
                       | [] => fst (take c s) = false /\ snd (take c s) = s
                       end.
Proof.
  pose proof (peek_remaining s) as P. unfold take. fold (peek s). destruct (peek s) as [d|] eqn:E.
  - rewrite (rest_step s d E). destruct (N.eqb c d); cbn; auto.
  - destruct (remaining s); [cbn; auto|discriminate].
Qed.

(** Reading everything: popping until the end returns the input in order. *)
Fixpoint pop_all (n : nat) (s : scanner) : text :=
  match n with
  | O => []
  | S n' => match pop s with (Some c, s') => c :: pop_all n' s' | (None, _) => [] end
  end.
Lemma pop_all_spec n : forall s, pop_all n s = firstn n (remaining s).
Proof.
  induction n as [|n IH]; intros s; [reflexivity|]. cbn. pose proof (pop_reads s) as P.
  destruct (pop s) as [[c|] s'] eqn:E; destruct (remaining s) as [|d rest]; cbn in P; destruct P as [P1 P2]; try discriminate.
  - inversion P1; subst. now rewrite IH.
  - reflexivity.
Qed.
Lemma new_valid input : valid (new_scanner input).
Proof. split; [cbn; lia|constructor]. Qed.

(** The whole behaviour of a scan *)
Lemma prefix_snoc (seq : text) c p q : seq ++ [c] = p ++ q -> p = seq ++ [c] \/ exists q', seq = p ++ q'.
Proof.
  intros H. destruct q as [|y q] using rev_ind; [left; now rewrite app_nil_r in H|]. right. exists q.
  rewrite app_assoc in H. apply app_inj_tail in H. tauto.
Qed.
Lemma scan_loop_scanned {T} (cb : text -> option (scan_action T)) rest : forall seq req rq pos0 r p,
  (forall a b, seq = a ++ b -> a <> [] -> goes_on cb a) ->
  ((seq = [] /\ req = false /\ rq = None) \/ (seq <> [] /\ req = true /\ cb seq = Some Require) \/
   (seq <> [] /\ req = false /\ exists t, rq = Some t /\ cb seq = Some (Request t))) ->
  scan_loop cb seq req rq (pos0 + length seq) rest = (r, p) ->
  exists consumed rest', seq ++ rest = consumed ++ rest' /\ p = pos0 + length consumed /\ scanned cb pos0 consumed rest' r.
Proof.
  induction rest as [|c rest IH]; intros seq req rq pos0 r p Hg Hc H; cbn [scan_loop] in H.
  - exists seq, []. rewrite app_nil_r. destruct Hc as [(-> & -> & ->)|[(Hn & -> & Hr)|(Hn & -> & t & -> & Hr)]]; injection H as <- <-.
    + split; [reflexivity|]. split; [reflexivity|]. constructor. now left.
    + split; [reflexivity|]. split; [reflexivity|]. now constructor.
    + split; [reflexivity|]. split; [reflexivity|]. constructor; auto.
  - assert (G : forall a b, seq ++ [c] = a ++ b -> a <> [] -> goes_on cb (seq ++ [c]) -> goes_on cb a).
    { intros a b Hab Ha Hx. destruct (prefix_snoc seq c a b Hab) as [->|[b' ->]]; [exact Hx|]. exact (Hg a b' eq_refl Ha). }
    destruct (cb (seq ++ [c])) as [[t| |t]|] eqn:E.
    + replace (pos0 + length seq + 1) with (pos0 + length (seq ++ [c])) in H by (rewrite app_length; cbn; lia).
      apply IH in H.
      * destruct H as (cs & rs & H1 & H2 & H3). exists cs, rs. split; [rewrite <- H1, <- app_assoc; reflexivity|auto].
      * intros a b Hab Ha. apply (G a b Hab Ha). right. now exists t.
      * right; right. split; [destruct seq; discriminate|]. split; [reflexivity|]. now exists t.
    + replace (pos0 + length seq + 1) with (pos0 + length (seq ++ [c])) in H by (rewrite app_length; cbn; lia).
      apply IH in H.
      * destruct H as (cs & rs & H1 & H2 & H3). exists cs, rs. split; [rewrite <- H1, <- app_assoc; reflexivity|auto].
      * intros a b Hab Ha. apply (G a b Hab Ha). now left.
      * right; left. split; [destruct seq; discriminate|]. now split.
    + injection H as <- <-. exists (seq ++ [c]), rest. split; [now rewrite <- app_assoc|]. split; [rewrite app_length; cbn; lia|]. now constructor.
    + exists seq, (c :: rest). split; [reflexivity|]. destruct Hc as [(-> & -> & ->)|[(Hn & -> & Hr)|(Hn & -> & t & -> & Hr)]]; injection H as <- <-.
      * split; [reflexivity|]. constructor. right. exists c, rest. auto.
      * split; [reflexivity|]. now constructor.
      * split; [reflexivity|]. constructor; auto. right. exists c, rest. auto.
Qed.
Lemma scan_scanned {T} (cb : text -> option (scan_action T)) s :
  exists consumed rest, remaining s = consumed ++ rest /\ sc_pos (snd (scan cb s)) = sc_pos s + length consumed /\
    scanned cb (sc_pos s) consumed rest (fst (scan cb s)).
Proof.
  unfold scan, remaining. destruct (scan_loop _ _ _ _ _ _) as [r p] eqn:E. cbn [fst snd at_pos sc_pos].
  replace (sc_pos s) with (sc_pos s + length (@nil N)) in E at 1 by (cbn; lia).
  apply scan_loop_scanned in E; [exact E| |now left].
  intros a b Hab Ha. destruct a; [now elim Ha|discriminate].
Qed.
