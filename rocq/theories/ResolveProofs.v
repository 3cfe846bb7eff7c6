From Verif Require Import Base Chars SubstModel SubstSafe ResolveModel ResolveSpec.
Local Open Scope list_scope.

(** Integers *)
Lemma digits_value_app a : forall acc b, digits_value acc (a ++ b) = match digits_value acc a with Some v => digits_value v b | None => None end.
Proof. induction a as [|c a IH]; intros acc b; cbn; [reflexivity|]. destruct (is_digit c); auto. Qed.
Lemma digit_of_N c : is_digit c = true <-> exists d, (0 <= d <= 9)%Z /\ c = Z.to_N (48 + d).
Proof.
  unfold is_digit. rewrite andb_true_iff, !N.leb_le. split.
  - intros H. exists (Z.of_N c - 48)%Z. split; [lia|]. replace (48 + (Z.of_N c - 48))%Z with (Z.of_N c) by lia. now rewrite N2Z.id.
  - intros (d & Hd & ->). lia.
Qed.
Lemma digits_mean_value t v : digits_mean t v -> digits_value 0 t = Some v.
Proof.
  induction 1 as [d Hd|t v d _ IH Hd].
  - cbn [digits_value]. rewrite (proj2 (digit_of_N _)) by eauto. f_equal. lia.
  - rewrite digits_value_app, IH. cbn [digits_value]. rewrite (proj2 (digit_of_N _)) by eauto. f_equal. lia.
Qed.
Lemma digits_value_mean t v : t <> [] -> digits_value 0 t = Some v -> digits_mean t v.
Proof.
  revert v. induction t as [|c t IH] using rev_ind; intros v Hne H; [now elim Hne|].
  rewrite digits_value_app in H. destruct (digits_value 0 t) as [u|] eqn:E; [|discriminate]. cbn [digits_value] in H.
  destruct (is_digit c) eqn:D; [|discriminate]. apply digit_of_N in D. destruct D as (d & Hd & ->).
  assert (v = 10 * u + d)%Z as ->.
  { apply (f_equal (fun o => match o with Some x => x | None => 0%Z end)) in H. cbn beta iota in H. lia. }
  destruct t as [|c0 t].
  - cbn in E. inversion E; subst. replace (10 * 0 + d)%Z with d by lia. now constructor.
  - apply dm_more; [|exact Hd]. apply IH; [discriminate|reflexivity].
Qed.
Lemma digits_mean_nonempty t v : digits_mean t v -> t <> [].
Proof. destruct 1; [discriminate|]. destruct t; discriminate. Qed.
Lemma digits_mean_head c t v : digits_mean (c :: t) v -> is_digit c = true.
Proof.
  intros H. apply digits_mean_value in H. cbn in H. destruct (is_digit c); [reflexivity|discriminate].
Qed.
Lemma i64_ok_iff z : i64_ok z = true <-> (- 2 ^ 63 <= z < 2 ^ 63)%Z.
Proof. unfold i64_ok. rewrite andb_true_iff, Z.leb_le, Z.ltb_lt. reflexivity. Qed.

Lemma parse_i64_iff t z : parse_i64 t = Some z <-> int_text t z.
Proof.
  unfold int_text. split.
  - destruct t as [|c ds]; [discriminate|]. unfold parse_i64.
    assert (A : forall neg l, match l with [] => None | _ => match digits_value 0 l with Some v => let z := if neg : bool then (- v)%Z else v in if i64_ok z then Some z else None | None => None end end = Some z ->
                (- 2 ^ 63 <= z < 2 ^ 63)%Z /\ digits_mean l (if neg then (- z)%Z else z)).
    { intros neg l. destruct l as [|x l]; [discriminate|]. destruct (digits_value 0 (x :: l)) as [v|] eqn:E; [|discriminate]. cbn zeta.
      destruct (i64_ok _) eqn:K; [|discriminate]. intros H. inversion H; subst. apply i64_ok_iff in K. split; [exact K|].
      apply digits_value_mean; [discriminate|]. rewrite E. f_equal. destruct neg; lia. }
    destruct (N.eqb_spec c 43) as [->|_]; [|destruct (N.eqb_spec c 45) as [->|_]].
    + intros H. destruct (A false ds H) as [H1 H2]. split; [exact H1|]. right. left. exists ds. auto.
    + intros H. destruct (A true ds H) as [H1 H2]. split; [exact H1|]. right. right. exists ds. auto.
    + intros H. destruct (A false (c :: ds) H) as [H1 H2]. auto.
  - intros [Hr Hd]. assert (Hk : i64_ok z = true) by now apply i64_ok_iff. destruct Hd as [Hd|[(ds & -> & Hd)|(ds & -> & Hd)]].
    + pose proof (digits_mean_value _ _ Hd) as V. destruct t as [|c t]; [now apply digits_mean_nonempty in Hd|]. pose proof (digits_mean_head _ _ _ Hd) as D.
      unfold parse_i64. destruct (N.eqb_spec c 43) as [->|_]; [discriminate|]. destruct (N.eqb_spec c 45) as [->|_]; [discriminate|].
      rewrite V. cbn zeta. now rewrite Hk.
    + pose proof (digits_mean_value _ _ Hd) as V. destruct ds as [|c t]; [now apply digits_mean_nonempty in Hd|].
      change (parse_i64 (chars "+" ++ c :: t)) with (match digits_value 0 (c :: t) with Some v => if i64_ok v then Some v else None | None => None end).
      rewrite V. now rewrite Hk.
    + pose proof (digits_mean_value _ _ Hd) as V. destruct ds as [|c t]; [now apply digits_mean_nonempty in Hd|].
      change (parse_i64 (chars "-" ++ c :: t)) with (match digits_value 0 (c :: t) with Some v => if i64_ok (- v) then Some (- v)%Z else None | None => None end).
      rewrite V. replace (- - z)%Z with z by lia. now rewrite Hk.
Qed.
Lemma parse_i64_none t : parse_i64 t = None -> forall z, ~ int_text t z.
Proof. intros H z Hz. apply parse_i64_iff in Hz. congruence. Qed.

Section Params.
Variable F : Type.
Variable parse_f64 : text -> option F.
Variable env : text -> option text.
Notation resolve_to_string := (resolve_to_string env).
Notation resolve_scalar := (resolve_scalar F parse_f64 env).
Notation resolve_node := (resolve_node F parse_f64 env).
Notation node := (node F).

Lemma to_string_ok ps t : parts_text env ps t -> resolve_to_string ps = Ok t.
Proof.
  intros (ts & H & ->). induction H as [|p u ps ts Hp _ IH]; [reflexivity|]. cbn [ResolveModel.resolve_to_string concat].
  assert (E : resolve_part env p = Ok u).
  { destruct p as [v|n]; cbn in *; [now subst|]. unfold resolve_substitution. unfold variable in Hp. now rewrite Hp. }
  rewrite E, IH. reflexivity.
Qed.
Lemma to_string_total ps : (exists t, parts_text env ps t) \/ (refers_to_missing env ps /\ resolve_to_string ps = Err MissingVariable).
Proof.
  induction ps as [|p ps IH]; [left; exists []; exists []; split; constructor|].
  assert (P : (exists u, part_text env p u /\ resolve_part env p = Ok u) \/ (exists n, p = Ref n /\ missing env n /\ resolve_part env p = Err MissingVariable)).
  { destruct p as [u|n]; [left; exists u; split; reflexivity|]. cbn. unfold resolve_substitution, variable, missing.
    destruct (env (chars "CELERITY_VARIABLE_" ++ n)) as [v|] eqn:E; [left; exists v; auto|right; exists n; auto]. }
  destruct P as [(u & Pu & Eu)|(n & -> & Hm & En)].
  - destruct IH as [(t & ts & H1 & H2)|[(n & Hn & Hm) IH]].
    + left. exists (u ++ t), (u :: ts). split; [constructor; assumption|]. cbn. now rewrite H2.
    + right. split; [exists n; split; [now right|exact Hm]|]. cbn [ResolveModel.resolve_to_string]. rewrite Eu. cbn [obind]. now rewrite IH.
  - right. split; [exists n; split; [now left|exact Hm]|]. cbn [ResolveModel.resolve_to_string]. now rewrite En.
Qed.
Lemma text_not_missing ps t : parts_text env ps t -> ~ refers_to_missing env ps.
Proof.
  intros (ts & H & _) (n & Hn & Hm). induction H as [|p u ps ts Hp _ IH]; [destruct Hn|]. destruct Hn as [->|Hn]; [|auto].
  cbn in Hp. unfold variable, missing in *. congruence.
Qed.

Lemma typed_of v : exists s, typed F parse_f64 v s /\
  forall n, variable env n v -> resolve_scalar [Ref n] = Ok s.
Proof.
  destruct (parse_i64 v) as [z|] eqn:Ei.
  - exists (SInt F z). split; [constructor; now apply parse_i64_iff|]. intros n Hn. cbn. unfold resolve_substitution. unfold variable in Hn. rewrite Hn, Ei. reflexivity.
  - pose proof (parse_i64_none v Ei) as Ni. destruct (parse_f64 v) as [f|] eqn:Ef.
    + exists (SFloat F f). split; [now constructor|]. intros n Hn. cbn. unfold resolve_substitution. unfold variable in Hn. now rewrite Hn, Ei, Ef.
    + destruct (parse_bool v) as [b|] eqn:Eb.
      * exists (SBool F b). split.
        -- constructor; [exact Ni|exact Ef|]. unfold parse_bool in Eb. destruct (text_eqb v (chars "true")) eqn:E1.
           ++ inversion Eb. now apply text_eqb_eq in E1.
           ++ destruct (text_eqb v (chars "false")) eqn:E2; [|discriminate]. inversion Eb. now apply text_eqb_eq in E2.
        -- intros n Hn. cbn. unfold resolve_substitution. unfold variable in Hn. now rewrite Hn, Ei, Ef, Eb.
      * exists (SStr F v). split.
        -- unfold parse_bool in Eb. destruct (text_eqb v (chars "true")) eqn:E1; [discriminate|]. destruct (text_eqb v (chars "false")) eqn:E2; [discriminate|].
           constructor; [exact Ni|exact Ef| |]; intros ->.
           ++ rewrite (proj2 (text_eqb_eq _ _) eq_refl) in E1. discriminate.
           ++ rewrite (proj2 (text_eqb_eq _ _) eq_refl) in E2. discriminate.
        -- intros n Hn. cbn. unfold resolve_substitution. unfold variable in Hn. now rewrite Hn, Ei, Ef, Eb.
Qed.
Lemma typed_unique v s s' : typed F parse_f64 v s -> typed F parse_f64 v s' -> s = s'.
Proof.
  intros H H'. destruct H as [z Hz|f Hn Hf|b Hn Hf Hb|Hn Hf Ht Hff]; destruct H' as [z' Hz'|f' Hn' Hf'|b' Hn' Hf' Hb'|Hn' Hf' Ht' Hff'];
    try (exfalso; solve [eapply Hn; eassumption | eapply Hn'; eassumption | congruence]).
  - apply parse_i64_iff in Hz, Hz'. congruence.
  - rewrite Hf in Hf'. congruence.
  - subst. destruct b, b'; try reflexivity; discriminate.
  - exfalso. destruct b; contradiction.
  - exfalso. destruct b'; contradiction.
  - reflexivity.
Qed.

Lemma scalar_ok ps s : ps <> [] -> parts_scalar F parse_f64 env ps s -> resolve_scalar ps = Ok s.
Proof.
  intros Hne H. destruct H as [n v s Hv Ht|ps t Hn Ht].
  - destruct (typed_of v) as (s' & T & R). rewrite (typed_unique _ _ _ Ht T). apply R, Hv.
  - unfold ResolveModel.resolve_scalar. destruct (Nat.ltb 1 (length ps)) eqn:L; [now rewrite (to_string_ok _ _ Ht)|].
    destruct ps as [|p [|q ps]]; [now elim Hne| |discriminate]. destruct p as [u|n]; [|now elim (Hn n)].
    destruct Ht as (ts & Ft & ->). inversion Ft as [|x y l l' Hx Hl]; subst. inversion Hl; subst. cbn in *. subst. now rewrite app_nil_r.
Qed.
Lemma scalar_total ps : ps <> [] ->
  (exists s, parts_scalar F parse_f64 env ps s) \/ (refers_to_missing env ps /\ resolve_scalar ps = Err MissingVariable).
Proof.
  intros Hne. destruct (to_string_total ps) as [(t & Ht)|[Hm He]].
  - left. destruct ps as [|[u|n] [|q ps]].
    + now elim Hne.
    + exists (SStr F t). constructor; [intros n H; discriminate|exact Ht].
    + exists (SStr F t). constructor; [intros n H; discriminate|exact Ht].
    + destruct Ht as (ts & Ft & _). inversion Ft as [|x y l l' Hx Hl]; subst. cbn in Hx. destruct (typed_of y) as (s & T & _). exists s. econstructor; eauto.
    + exists (SStr F t). constructor; [intros m H; discriminate|exact Ht].
  - right. split; [exact Hm|]. unfold ResolveModel.resolve_scalar. destruct (Nat.ltb 1 (length ps)) eqn:L; [now rewrite He|].
    destruct ps as [|p [|q ps]]; [now elim Hne| |discriminate]. destruct p as [u|n].
    + destruct Hm as (n & [Hn|[]] & _). discriminate.
    + destruct Hm as (m & [Hm|[]] & Hmm). inversion Hm; subst. cbn. unfold resolve_substitution. unfold missing in Hmm. now rewrite Hmm.
Qed.
Lemma scalar_not_missing ps s : parts_scalar F parse_f64 env ps s -> ~ refers_to_missing env ps.
Proof.
  intros H. destruct H as [n v s Hv Ht|ps t Hn Ht].
  - intros (m & [Hm|[]] & Hmm). inversion Hm; subst. unfold variable, missing in *. congruence.
  - now apply (text_not_missing ps t).
Qed.

(** Induction on nodes *)
Lemma node_induction (P : node -> Prop) :
  (forall s, P (NScalar F s)) -> P (NNull F) -> (forall ps, P (NSub F ps)) ->
  (forall l, Forall P l -> P (NSeq F l)) -> (forall m, Forall (fun e => P (snd e)) m -> P (NMap F m)) -> forall n, P n.
Proof.
  intros H1 H2 H3 H4 H5. fix IH 1. intros n. destruct n as [s|m|l|ps|].
  - apply H1.
  - apply H5. induction m as [|[key v] m IHm]; constructor; [apply IH|exact IHm].
  - apply H4. induction l as [|v l IHl]; constructor; [apply IH|exact IHl].
  - apply H3.
  - exact H2.
Qed.

Definition seq_go (d : nat) := fix go (l : list node) : outcome rerr (list (rnode F)) := match l with
  | [] => Ok [] | v :: l' => let! r := resolve_node (d + 1) v in let! rs := go l' in Ok (r :: rs) end.
Definition map_go (d : nat) := fix go (l : list (text * node)) : outcome rerr (list (text * rnode F)) := match l with
  | [] => Ok [] | (k, v) :: l' => let! r := resolve_node (d + 1) v in let! rs := go l' in Ok ((k, r) :: rs) end.
Lemma node_seq d l : resolve_node d (NSeq F l) = if Nat.ltb max_resolve_depth d then Err (MaxDepth d) else omap (RSeq F) (seq_go d l).
Proof. reflexivity. Qed.
Lemma node_map d m : resolve_node d (NMap F m) = if Nat.ltb max_resolve_depth d then Err (MaxDepth d) else omap (RMap F) (map_go d m).
Proof. reflexivity. Qed.

(** The result, given the depth at which the node stands *)
Lemma resolve_node_spec n : forall d, d <= max_resolve_depth -> proper F n ->
  (~ deeper_than F (max_resolve_depth - d) n /\ ~ node_missing F env n /\ exists r, resolved F parse_f64 env n r /\ resolve_node d n = Ok r) \/
  ((deeper_than F (max_resolve_depth - d) n \/ node_missing F env n) /\
     ((resolve_node d n = Err (MaxDepth 21) /\ deeper_than F (max_resolve_depth - d) n) \/ (resolve_node d n = Err MissingVariable /\ node_missing F env n))).
Proof.
  induction n as [s| |ps|l IH|m IH] using node_induction; intros d Hd Hp.
  - left. split; [intros (d' & x & Hlt & Ho); inversion Ho; subst; lia|]. split; [intros (d' & ps & Ho & _); inversion Ho|].
    exists (RScalar F s). split; [constructor|]. cbn [ResolveModel.resolve_node]. now rewrite (proj2 (Nat.ltb_ge _ _) Hd).
  - left. split; [intros (d' & x & Hlt & Ho); inversion Ho; subst; lia|]. split; [intros (d' & ps & Ho & _); inversion Ho|].
    exists (RNull F). split; [constructor|]. cbn [ResolveModel.resolve_node]. now rewrite (proj2 (Nat.ltb_ge _ _) Hd).
  - assert (Hne : ps <> []) by (intros ->; apply (Hp 0); constructor).
    destruct (scalar_total ps Hne) as [(s & Hs)|[Hm He]].
    + left. split; [intros (d' & x & Hlt & Ho); inversion Ho; subst; lia|]. split.
      * intros (d' & qs & Ho & Hq). inversion Ho; subst. now apply (scalar_not_missing _ _ Hs).
      * exists (RScalar F s). split; [now constructor|]. cbn [ResolveModel.resolve_node]. rewrite (proj2 (Nat.ltb_ge _ _) Hd). now rewrite (scalar_ok _ _ Hne Hs).
    + right. assert (M : node_missing F env (NSub F ps)) by (exists 0, ps; split; [constructor|exact Hm]). split; [now right|].
      right. split; [|exact M]. cbn [ResolveModel.resolve_node]. rewrite (proj2 (Nat.ltb_ge _ _) Hd). now rewrite He.
  - rewrite node_seq, (proj2 (Nat.ltb_ge _ _) Hd).
    assert (Go : (~ deeper_than F (max_resolve_depth - d) (NSeq F l) /\ ~ node_missing F env (NSeq F l) /\ exists r, Forall2 (resolved F parse_f64 env) l r /\ seq_go d l = Ok r) \/
                 ((seq_go d l = Err (MaxDepth 21) /\ deeper_than F (max_resolve_depth - d) (NSeq F l)) \/ (seq_go d l = Err MissingVariable /\ node_missing F env (NSeq F l)))).
    { induction IH as [|v l Hv _ IHl].
      - left. split; [intros (d' & x & Hlt & Ho); inversion Ho; subst; [lia|contradiction]|]. split; [intros (d' & ps & Ho & _); inversion Ho; subst; contradiction|].
        exists []. split; [constructor|reflexivity].
      - assert (Pv : proper F v) by (intros e Ho; apply (Hp (S e)); econstructor; [now left|exact Ho]).
        assert (Pl : proper F (NSeq F l)). { intros e Ho. inversion Ho; subst. apply (Hp (S d0)). econstructor; [right; eassumption|assumption]. }
        specialize (IHl Pl). cbn [seq_go].
        destruct (Nat.eq_dec d max_resolve_depth) as [->|Hdm].
        + right. left. split.
          * replace (resolve_node (max_resolve_depth + 1) v) with (Err (A := rnode F) (MaxDepth 21)) by (destruct v; reflexivity). reflexivity.
          * exists 1, v. split; [lia|]. econstructor; [now left|constructor].
        + destruct (Hv (d + 1) ltac:(lia) Pv) as [(D1 & M1 & r & R1 & E1)|(_ & [(E1 & D1)|(E1 & M1)])].
          * rewrite E1. cbn [obind]. change (match l with [] => _ | _ => _ end) with (seq_go d l) || idtac.
            destruct IHl as [(D2 & M2 & rs & R2 & E2)|[(E2 & D2)|(E2 & M2)]]; fold (seq_go d); rewrite E2; cbn [obind].
            -- left. split; [|split].
               ++ intros (d' & x & Hlt & Ho). inversion Ho as [|e x' y l' Hy Hoy|]; subst; [lia|]. destruct Hy as [<-|Hy].
                  ** apply D1. exists e, x. split; [lia|exact Hoy].
                  ** apply D2. exists (S e), x. split; [lia|]. econstructor; eassumption.
               ++ intros (d' & ps & Ho & Hq). inversion Ho as [|e x' y l' Hy Hoy|]; subst. destruct Hy as [<-|Hy].
                  ** apply M1. exists e, ps. auto.
                  ** apply M2. exists (S e), ps. split; [econstructor; eassumption|exact Hq].
               ++ exists (r :: rs). split; [constructor; assumption|reflexivity].
            -- right. left. split; [reflexivity|]. destruct D2 as (d' & x & Hlt & Ho). exists d', x. split; [exact Hlt|].
               inversion Ho; subst; [lia|]. econstructor; [right; eassumption|assumption].
            -- right. right. split; [reflexivity|]. destruct M2 as (d' & ps & Ho & Hq). exists d', ps. split; [|exact Hq].
               inversion Ho; subst. econstructor; [right; eassumption|assumption].
          * right. left. rewrite E1. split; [reflexivity|]. destruct D1 as (d' & x & Hlt & Ho). exists (S d'), x. split; [lia|]. econstructor; [now left|exact Ho].
          * right. right. rewrite E1. split; [reflexivity|]. destruct M1 as (d' & ps & Ho & Hq). exists (S d'), ps. split; [econstructor; [now left|exact Ho]|exact Hq]. }
    destruct Go as [(D & M & r & R & E)|G].
    + left. split; [exact D|]. split; [exact M|]. exists (RSeq F r). split; [now constructor|]. now rewrite E.
    + right. destruct G as [(E & D)|(E & M)]; rewrite E; cbn [omap]; tauto.
  - rewrite node_map, (proj2 (Nat.ltb_ge _ _) Hd).
    assert (Go : (~ deeper_than F (max_resolve_depth - d) (NMap F m) /\ ~ node_missing F env (NMap F m) /\ exists r, Forall2 (fun a b => fst a = fst b /\ resolved F parse_f64 env (snd a) (snd b)) m r /\ map_go d m = Ok r) \/
                 ((map_go d m = Err (MaxDepth 21) /\ deeper_than F (max_resolve_depth - d) (NMap F m)) \/ (map_go d m = Err MissingVariable /\ node_missing F env (NMap F m)))).
    { induction IH as [|[key v] m Hv _ IHl].
      - left. split; [intros (d' & x & Hlt & Ho); inversion Ho; subst; [lia|contradiction]|]. split; [intros (d' & ps & Ho & _); inversion Ho; subst; contradiction|].
        exists []. split; [constructor|reflexivity].
      - cbn [snd] in Hv. assert (Pv : proper F v) by (intros e Ho; apply (Hp (S e)); econstructor; [left; reflexivity|exact Ho]).
        assert (Pl : proper F (NMap F m)). { intros e Ho. inversion Ho; subst. apply (Hp (S d0)). econstructor; [right; eassumption|assumption]. }
        specialize (IHl Pl). cbn [map_go].
        destruct (Nat.eq_dec d max_resolve_depth) as [->|Hdm].
        + right. left. split.
          * replace (resolve_node (max_resolve_depth + 1) v) with (Err (A := rnode F) (MaxDepth 21)) by (destruct v; reflexivity). reflexivity.
          * exists 1, v. split; [lia|]. econstructor; [left; reflexivity|constructor].
        + destruct (Hv (d + 1) ltac:(lia) Pv) as [(D1 & M1 & r & R1 & E1)|(_ & [(E1 & D1)|(E1 & M1)])].
          * rewrite E1. cbn [obind].
            destruct IHl as [(D2 & M2 & rs & R2 & E2)|[(E2 & D2)|(E2 & M2)]]; fold (map_go d); rewrite E2; cbn [obind].
            -- left. split; [|split].
               ++ intros (d' & x & Hlt & Ho). inversion Ho as [| |e x' y key' m' Hy Hoy]; subst; [lia|]. destruct Hy as [Hy|Hy].
                  ** inversion Hy; subst. apply D1. exists e, x. split; [lia|exact Hoy].
                  ** apply D2. exists (S e), x. split; [lia|]. econstructor; eassumption.
               ++ intros (d' & ps & Ho & Hq). inversion Ho as [| |e x' y key' m' Hy Hoy]; subst. destruct Hy as [Hy|Hy].
                  ** inversion Hy; subst. apply M1. exists e, ps. auto.
                  ** apply M2. exists (S e), ps. split; [econstructor; eassumption|exact Hq].
               ++ exists ((key, r) :: rs). split; [constructor; [split; [reflexivity|exact R1]|assumption]|reflexivity].
            -- right. left. split; [reflexivity|]. destruct D2 as (d' & x & Hlt & Ho). exists d', x. split; [exact Hlt|].
               inversion Ho; subst; [lia|]. econstructor; [right; eassumption|assumption].
            -- right. right. split; [reflexivity|]. destruct M2 as (d' & ps & Ho & Hq). exists d', ps. split; [|exact Hq].
               inversion Ho; subst. econstructor; [right; eassumption|assumption].
          * right. left. rewrite E1. split; [reflexivity|]. destruct D1 as (d' & x & Hlt & Ho). exists (S d'), x. split; [lia|]. econstructor; [left; reflexivity|exact Ho].
          * right. right. rewrite E1. split; [reflexivity|]. destruct M1 as (d' & ps & Ho & Hq). exists (S d'), ps. split; [econstructor; [left; reflexivity|exact Ho]|exact Hq]. }
    destruct Go as [(D & M & r & R & E)|G].
    + left. split; [exact D|]. split; [exact M|]. exists (RMap F r). split; [now constructor|]. now rewrite E.
    + right. destruct G as [(E & D)|(E & M)]; rewrite E; cbn [omap]; tauto.
Qed.
End Params.
