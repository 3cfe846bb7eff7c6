From Verif Require Import Base Chars ScannerModel SubstModel SubstSpec SubstScan.
Local Open Scope list_scope.

Section WithClasses.
Variable k : classes.
Hypothesis Hk : sane k.
Notation step := (step k).
Notation steps := (steps k).

Definition mk rp po il ps pn pr : st :=
  {| rev_parsed := rp; possible := po; in_lit := il; psub := ps; pnon := pn; prev := pr |}.
Definition final (t : text) (p : N) : N := fold_left (fun _ c => c) t p.
Definition lit (t : text) : list part := match t with [] => [] | c :: u => [Lit (c :: u)] end.
Definition addlit (t : text) (rp : list part) : list part := match t with [] => rp | _ => Lit t :: rp end.

Lemma steps_app a : forall s b, steps s (a ++ b) = let! s' := steps s a in steps s' b.
Proof.
  induction a as [|c a IH]; intros s b; [reflexivity|]. cbn. destruct (step s c); cbn; auto.
Qed.
Lemma steps_one s c : steps s [c] = step s c.
Proof. cbn. destruct (step s c); reflexivity. Qed.

Lemma contains_cons c d t : contains open_sub (c :: d :: t) = false ->
  ((c =? c_dollar)%N && (d =? c_open)%N) = false /\ contains open_sub (d :: t) = false.
Proof.
  intros H. cbn [contains] in *. apply orb_false_iff in H. destruct H as [H1 H2]. split; [|exact H2].
  cbn [starts_with open_sub] in H1. rewrite andb_true_r in H1. rewrite N.eqb_sym, (N.eqb_sym d). exact H1.
Qed.

Lemma text_steps t : forall rp non pr, contains open_sub (pr :: t) = false ->
  steps (mk rp false false [] non pr) t = Ok (mk rp false false [] (non ++ t) (final t pr)).
Proof.
  induction t as [|c t IH]; intros rp non pr H; [cbn; now rewrite app_nil_r|].
  apply contains_cons in H. destruct H as [H1 H2]. cbn [SubstModel.steps]. unfold SubstModel.step, check_open.
  cbn [mk prev in_lit]. rewrite H1. cbn [andb obind]. unfold check_literal. cbn [mk possible prev]. rewrite andb_false_r.
  unfold check_close. cbn [mk possible]. rewrite andb_false_r. cbn [andb obind after_close grow_sub mk possible].
  change ({| rev_parsed := rp; possible := false; in_lit := false; psub := []; pnon := non ++ [c]; prev := c |}) with (mk rp false false [] (non ++ [c]) c).
  cbn [mk]. fold (mk rp false false [] (non ++ [c]) c).
  rewrite IH by exact H2. rewrite <- app_assoc. reflexivity.
Qed.

Lemma body_step rp il ps pn pr d : (d =? c_quote)%N = false ->
  (il = true \/ ((d =? c_open)%N = false /\ (d =? c_close)%N = false)) ->
  step (mk rp true il ps pn pr) d = Ok (mk rp true il (ps ++ [d]) (pn ++ [d]) d).
Proof.
  intros Hq Hb. unfold SubstModel.step, check_open. cbn [mk prev in_lit].
  assert (E1 : ((pr =? c_dollar)%N && (d =? c_open)%N && negb il) = false).
  { destruct Hb as [-> |[-> _]]; [now rewrite andb_false_r|now rewrite andb_false_r]. }
  rewrite E1. cbn [obind]. unfold check_literal. rewrite Hq. cbn [andb]. unfold check_close. cbn [mk possible in_lit].
  assert (E2 : ((d =? c_close)%N && true && negb il) = false).
  { destruct Hb as [-> |[_ ->]]; [now rewrite andb_false_r|reflexivity]. }
  rewrite E2. reflexivity.
Qed.
Lemma body_steps b : forall rp il ps pn pr,
  (forall d, In d b -> (d =? c_quote)%N = false /\ (il = true \/ ((d =? c_open)%N = false /\ (d =? c_close)%N = false))) ->
  steps (mk rp true il ps pn pr) b = Ok (mk rp true il (ps ++ b) (pn ++ b) (final b pr)).
Proof.
  induction b as [|d b IH]; intros rp il ps pn pr H; [cbn; now rewrite !app_nil_r|].
  cbn [SubstModel.steps]. rewrite body_step by (apply H; now left). cbn [obind]. rewrite IH by (intros e He; apply H; now right).
  rewrite <- !app_assoc. reflexivity.
Qed.
Lemma quote_step rp il ps pn pr : (pr =? c_backslash)%N = false ->
  step (mk rp true il ps pn pr) c_quote = Ok (mk rp true (negb il) (ps ++ [c_quote]) (pn ++ [c_quote]) c_quote).
Proof.
  intros H. unfold SubstModel.step, check_open. cbn [mk prev in_lit]. rewrite andb_false_r. cbn [obind andb].
  unfold check_literal. cbn [mk prev possible in_lit]. rewrite H. reflexivity.
Qed.

Lemma open_steps rp non pr :
  steps (mk rp false false [] non pr) open_sub = Ok (mk (addlit non rp) true false [] (non ++ open_sub) c_open).
Proof.
  unfold open_sub. cbn [SubstModel.steps].
  assert (E : step (mk rp false false [] non pr) c_dollar = Ok (mk rp false false [] (non ++ [c_dollar]) c_dollar)).
  { unfold SubstModel.step, check_open. cbn [mk prev in_lit]. rewrite andb_false_r. reflexivity. }
  rewrite E. cbn [obind]. unfold SubstModel.step, check_open. cbn [mk prev in_lit].
  change ((c_dollar =? c_dollar)%N && (c_open =? c_open)%N && negb false) with true. cbv iota.
  unfold drop_last_byte. cbn [mk pnon]. rewrite rev_unit. change (Nat.eqb (utf8_len c_dollar) 1) with true. cbv iota.
  rewrite rev_involutive. cbn [obind]. unfold check_literal, check_close. cbn. unfold addlit.
  rewrite <- app_assoc. destruct non; reflexivity.
Qed.

Lemma close_step rp b pn pr n : starts_with kw_variables b = true -> parse_substitution k b = inl n ->
  step (mk rp true false b pn pr) c_close = Ok (mk (Ref n :: rp) false false [] [] c_close).
Proof.
  intros H1 H2. unfold SubstModel.step, check_open. cbn [mk prev in_lit]. rewrite andb_false_r. cbn [obind andb].
  unfold check_literal. change ((c_close =? c_quote)%N) with false. cbn [andb]. unfold check_close. cbn [mk possible in_lit psub].
  rewrite H1, H2. reflexivity.
Qed.

(** What characters of names are not *)
Lemma name_char d : literal_char k d = true ->
  (d =? c_quote)%N = false /\ (d =? c_open)%N = false /\ (d =? c_close)%N = false /\ (d =? c_backslash)%N = false.
Proof.
  intros H. repeat split; apply N.eqb_neq; intros ->; (rewrite ascii_not_literal in H; [discriminate|exact Hk|reflexivity|reflexivity]).
Qed.
Lemma alphabetic_ascii_not d : (d < 128)%N -> is_letter d = false -> alphabetic k d = false.
Proof. intros H E. destruct Hk as (A & _). now rewrite A. Qed.
Lemma start_char d : ident_start k d = true ->
  (d =? c_quote)%N = false /\ (d =? c_open)%N = false /\ (d =? c_close)%N = false.
Proof.
  intros H. unfold ident_start in H.
  repeat split; apply N.eqb_neq; intros ->; (rewrite alphabetic_ascii_not in H; [discriminate|reflexivity|reflexivity]).
Qed.
Lemma dot_chars n d : dot_name k n -> In d n ->
  (d =? c_quote)%N = false /\ (d =? c_open)%N = false /\ (d =? c_close)%N = false.
Proof.
  intros H Hd. apply dot_name_iff in H. destruct H as (c & t & -> & Hc & Ht). destruct Hd as [->|Hd].
  - now apply start_char.
  - rewrite forallb_forall in Ht. specialize (Ht d Hd). assert (L : literal_char k d = true) by (unfold literal_char; now rewrite Ht).
    apply name_char in L. tauto.
Qed.
Lemma kw_chars d : In d kw_variables -> (d =? c_quote)%N = false /\ (d =? c_open)%N = false /\ (d =? c_close)%N = false.
Proof. intros H. repeat (destruct H as [<- |H]; [repeat split|]). destruct H. Qed.

Lemma last_not_backslash n p : (p =? c_backslash)%N = false -> forallb (literal_char k) n = true -> (final n p =? c_backslash)%N = false.
Proof.
  revert p. induction n as [|d n IH]; intros p Hp Hn; [exact Hp|]. cbn in Hn. apply andb_prop in Hn. destruct Hn as [Hd Hn].
  assert (Hd' : (d =? c_backslash)%N = false) by (apply name_char in Hd; tauto). exact (IH d Hd' Hn).
Qed.

Lemma ref_steps p rp non pr : piece_ok k p -> ~ is_text p ->
  steps (mk rp false false [] non pr) (written p) = Ok (mk (meant p :: addlit non rp) false false [] [] c_close).
Proof.
  intros Hp Ht. destruct p as [t|n|n]; [now elim Ht| |]; cbn [written accessor meant piece_ok] in *.
  - change (chars "${variables" ++ (chars "." ++ n) ++ chars "}") with (open_sub ++ kw_variables ++ ([c_dot] ++ n) ++ [c_close]).
    rewrite steps_app, open_steps. cbn [obind]. rewrite app_assoc, steps_app, body_steps.
    + cbn [obind]. rewrite steps_one. apply close_step; [reflexivity|]. cbn [app]. pose proof (parse_dot k Hk n [] Hp I) as P. rewrite app_nil_r in P. exact P.
    + intros d Hd. apply in_app_or in Hd. destruct Hd as [Hd|[<-|Hd]].
      * apply kw_chars in Hd. tauto.
      * split; [reflexivity|right; split; reflexivity].
      * apply (dot_chars n d Hp) in Hd. tauto.
  - apply quoted_name_iff in Hp.
    replace (chars "${variables" ++ (chars "[""" ++ n ++ chars """]") ++ chars "}")
      with (open_sub ++ (kw_variables ++ [c_lbrack]) ++ [c_quote] ++ n ++ [c_quote] ++ [c_rbrack] ++ [c_close])
      by (cbn; do 13 f_equal; now rewrite <- app_assoc).
    rewrite steps_app, open_steps. cbn [obind]. rewrite steps_app, body_steps.
    2:{ intros d Hd. apply in_app_or in Hd. destruct Hd as [Hd|[<-|[]]].
        - apply kw_chars in Hd. tauto.
        - split; [reflexivity|right; split; reflexivity]. }
    cbn [obind]. rewrite steps_app, steps_one, quote_step by reflexivity. cbn [obind negb].
    rewrite steps_app, body_steps.
    2:{ intros d Hd. rewrite forallb_forall in Hp. specialize (Hp d Hd). apply name_char in Hp. tauto. }
    cbn [obind]. rewrite steps_app, steps_one, quote_step by (apply last_not_backslash; [reflexivity|exact Hp]). cbn [obind negb].
    rewrite steps_app, steps_one, body_step; [|reflexivity|right; split; reflexivity]. cbn [obind]. rewrite steps_one.
    apply close_step; [reflexivity|].
    replace (((([] ++ kw_variables ++ [c_lbrack]) ++ [c_quote]) ++ n) ++ [c_quote]) with (kw_variables ++ [c_lbrack; c_quote] ++ n ++ [c_quote])
      by (rewrite <- !app_assoc; reflexivity).
    rewrite <- !app_assoc. cbn [app]. change (c_quote :: [c_rbrack]) with ([c_quote; c_rbrack] ++ []).
    apply (parse_bracket k Hk n []). now apply quoted_name_iff.
Qed.

Fixpoint fin (ps : list piece) (non : text) (rp : list part) : list part * text :=
  match ps with
  | [] => (rp, non)
  | PText t :: ps' => fin ps' (non ++ t) rp
  | p :: ps' => fin ps' [] (meant p :: addlit non rp)
  end.
Lemma pieces_steps ps : forall rp non pr, Forall (piece_ok k) ps -> separated ps ->
  match ps with PText t :: _ => contains open_sub (pr :: t) = false | _ => True end ->
  exists pr', steps (mk rp false false [] non pr) (written_all ps) = Ok (mk (fst (fin ps non rp)) false false [] (snd (fin ps non rp)) pr').
Proof.
  induction ps as [|p ps IH]; intros rp non pr Hok Hsep Hpr; [exists pr; reflexivity|].
  inversion Hok as [|x l Hp Hps]; subst. unfold written_all. cbn [map concat]. fold (written_all ps). rewrite steps_app.
  assert (Hsep' : separated ps) by (destruct p; [|exact Hsep|exact Hsep]; destruct ps as [|[]]; [exact I|destruct Hsep|exact Hsep|exact Hsep]).
  destruct (match p with PText _ => true | _ => false end) eqn:Et.
  - destruct p as [t|n|n]; try discriminate. cbn [written]. rewrite text_steps by exact Hpr. cbn [obind fin].
    apply IH; [exact Hps|exact Hsep'|]. destruct ps as [|[u|n|n] ps]; auto. destruct Hsep.
  - rewrite ref_steps; [|exact Hp|destruct p; [discriminate| |]; auto]. cbn [obind].
    assert (Q : match ps with PText t :: _ => contains open_sub (c_close :: t) = false | _ => True end).
    { destruct ps as [|[u|n|n] ps]; auto. inversion Hps as [|x l Hu _]; subst. destruct Hu as [_ Hc]. cbn [contains]. rewrite orb_false_iff. split; [reflexivity|exact Hc]. }
    destruct (IH (meant p :: addlit non rp) [] c_close Hps Hsep' Q) as (pr' & E). exists pr'. rewrite E.
    destruct p; [discriminate| |]; reflexivity.
Qed.

Lemma fin_parts ps : forall rp non, Forall (piece_ok k) ps -> separated ps ->
  (non = [] \/ match ps with PText _ :: _ => False | _ => True end) ->
  rev (fst (fin ps non rp)) ++ lit (snd (fin ps non rp)) = rev rp ++ lit non ++ map meant ps.
Proof.
  induction ps as [|p ps IH]; intros rp non Hok Hsep Hn; [cbn; now rewrite app_nil_r|].
  inversion Hok as [|x l Hp Hps]; subst. destruct p as [t|n|n]; cbn [fin].
  - destruct Hn as [->|[]]. cbn [app]. rewrite IH; [|exact Hps|destruct ps as [|[]]; [exact I|destruct Hsep|exact Hsep|exact Hsep]|].
    + cbn [map lit app meant]. destruct Hp as [Hne _]. destruct t; [now elim Hne|reflexivity].
    + right. destruct ps as [|[]]; auto.
  - rewrite IH; [|exact Hps|exact Hsep|now left]. cbn [rev map lit app meant]. unfold addlit. destruct non; cbn; now rewrite <- ?app_assoc.
  - rewrite IH; [|exact Hps|exact Hsep|now left]. cbn [rev map lit app meant]. unfold addlit. destruct non; cbn; now rewrite <- ?app_assoc.
Qed.

(** [concat_adjacent] leaves well separated lists as they are. *)
Fixpoint apart (ps : list part) : Prop :=
  match ps with
  | [] => True
  | Lit t :: ps' => t <> [] /\ match ps' with Lit _ :: _ => False | _ => True end /\ apart ps'
  | Ref _ :: ps' => apart ps'
  end.
Lemma concat_apart ps : apart ps -> concat_adjacent [] ps = ps.
Proof.
  induction ps as [|p ps IH]; [reflexivity|]. destruct p as [t|n]; cbn.
  - intros (Hne & Hx & Ha). specialize (IH Ha). destruct ps as [|[u|m] ps]; cbn in *; [destruct t; [now elim Hne|reflexivity]|destruct Hx|].
    destruct t; [now elim Hne|]. inversion IH as [E]. now rewrite !E.
  - intros H. now rewrite IH.
Qed.
Lemma pieces_apart ps : Forall (piece_ok k) ps -> separated ps -> apart (map meant ps).
Proof.
  induction ps as [|p ps IH]; intros Hok Hsep; [exact I|]. inversion Hok as [|x l Hp Hps]; subst. destruct p as [t|n|n]; cbn.
  - split; [apply Hp|]. destruct ps as [|[u|m|m] ps]; cbn in *; [tauto|destruct Hsep| |]; (split; [exact I|apply IH; assumption]).
  - apply IH; assumption.
  - apply IH; assumption.
Qed.

Lemma contains_app_r a b : contains open_sub b = true -> contains open_sub (a ++ b) = true.
Proof. intros H. apply contains_spec in H. destruct H as (x & y & ->). apply contains_spec. exists (a ++ x), y. now rewrite <- app_assoc. Qed.
Lemma contains_app_l a b : contains open_sub a = true -> contains open_sub (a ++ b) = true.
Proof. intros H. apply contains_spec in H. destruct H as (x & y & ->). apply contains_spec. exists x, (y ++ b). now rewrite <- !app_assoc. Qed.
Lemma ref_contains p : ~ is_text p -> contains open_sub (written p) = true.
Proof. destruct p; intros H; [now elim H| |]; reflexivity. Qed.
Lemma any_ref_contains ps : Exists (fun p => ~ is_text p) ps -> contains open_sub (written_all ps) = true.
Proof.
  induction 1 as [p ps H|p ps _ IH]; unfold written_all; cbn [map concat].
  - apply contains_app_l, ref_contains, H.
  - apply contains_app_r, IH.
Qed.

Lemma parses_as_written ps : well_written k ps -> parse_substitutions k (written_all ps) = Ok (map meant ps).
Proof.
  intros (Hne & Hok & Hsep). unfold parse_substitutions. destruct (contains open_sub (written_all ps)) eqn:C; cbn [negb].
  - destruct (pieces_steps ps [] [] 32%N Hok Hsep) as (pr' & E).
    { destruct ps as [|[t|n|n] ps]; auto. inversion Hok as [|x l Hu _]; subst. destruct Hu as [_ Hc]. cbn [contains]. rewrite orb_false_iff. split; [reflexivity|exact Hc]. }
    change init_st with (mk [] false false [] [] 32%N). rewrite E. cbn [obind mk rev_parsed pnon].
    pose proof (fin_parts ps [] [] Hok Hsep (or_introl eq_refl)) as F. cbn [rev lit app] in F. 
    transitivity (Ok (E := perr) (concat_adjacent [] (map meant ps))); [rewrite <- F; reflexivity|].
    f_equal. apply concat_apart, pieces_apart; assumption.
  - destruct ps as [|p ps]; [now elim Hne|]. destruct p as [t|n|n].
    + destruct ps as [|q ps]; [cbn [map meant]; unfold written_all; cbn; now rewrite app_nil_r|].
      rewrite any_ref_contains in C; [discriminate|]. right. left. destruct q; [destruct Hsep| |]; intros [].
    + rewrite any_ref_contains in C; [discriminate|]. left. intros [].
    + rewrite any_ref_contains in C; [discriminate|]. left. intros [].
Qed.

(** Substitutions of other kinds *)
Lemma chunk_steps c rp ps pn pr : chunk_ok c -> (pr =? c_backslash)%N = false ->
  exists pr', (pr' =? c_backslash)%N = false /\
  steps (mk rp true false ps pn pr) (chunk_text c) = Ok (mk rp true false (ps ++ chunk_text c) (pn ++ chunk_text c) pr').
Proof.
  intros Hc Hp. destruct c as [t|t]; cbn [chunk_text chunk_ok] in *.
  - exists (final t pr). split.
    + clear - Hc Hp. revert pr Hp. induction t as [|d t IH]; intros pr Hp; [exact Hp|].
      assert (Hd : (d =? c_backslash)%N = false). { apply N.eqb_neq. intros ->. apply (Hc c_backslash); [now left|]. cbn. tauto. }
      assert (IH' := IH (fun e He => Hc e (or_intror He)) d Hd). exact IH'.
    + apply body_steps. intros d Hd. specialize (Hc d Hd). cbn in Hc. repeat split.
      * apply N.eqb_neq. intros ->. tauto.
      * right. split; apply N.eqb_neq; intros ->; tauto.
  - exists c_quote. split; [reflexivity|]. change (chars """") with [c_quote]. rewrite steps_app, steps_one, quote_step by exact Hp. cbn [obind negb].
    rewrite steps_app, body_steps.
    + cbn [obind]. rewrite steps_one, quote_step.
      * cbn [negb]. now rewrite <- !app_assoc.
      * clear - Hc. assert (P : (c_quote =? c_backslash)%N = false) by reflexivity. revert P. generalize c_quote. induction t as [|d t IH]; intros q P; [exact P|].
        assert (Hd : (d =? c_backslash)%N = false). { apply N.eqb_neq. intros ->. apply (Hc c_backslash); [now left|]. cbn. tauto. }
        assert (IH' := IH (fun e He => Hc e (or_intror He)) d Hd). exact IH'.
    + intros d Hd. specialize (Hc d Hd). cbn in Hc. split; [apply N.eqb_neq; intros ->; tauto|now left].
Qed.
Lemma inside_steps cs : forall rp ps pn pr, Forall chunk_ok cs -> (pr =? c_backslash)%N = false ->
  exists pr', steps (mk rp true false ps pn pr) (inside cs) = Ok (mk rp true false (ps ++ inside cs) (pn ++ inside cs) pr').
Proof.
  induction cs as [|c cs IH]; intros rp ps pn pr Hok Hp.
  - exists pr. unfold inside. cbn. now rewrite !app_nil_r.
  - inversion Hok as [|x l Hc Hcs]; subst. unfold inside. cbn [map concat]. fold (inside cs). rewrite steps_app.
    destruct (chunk_steps c rp ps pn pr Hc Hp) as (p1 & Hp1 & ->). cbn [obind].
    destruct (IH rp (ps ++ chunk_text c) (pn ++ chunk_text c) p1 Hcs Hp1) as (p2 & ->). exists p2. now rewrite <- !app_assoc.
Qed.
Lemma unsupported_step rp b pn pr : starts_with kw_variables b = false ->
  step (mk rp true false b pn pr) c_close =
  Ok match rp with
     | Lit _ :: r => mk (Lit (pn ++ [c_close]) :: r) true false (b ++ [c_close]) [] c_close
     | _ => mk rp true false (b ++ [c_close]) (pn ++ [c_close]) c_close
     end.
Proof.
  intros H. unfold SubstModel.step, check_open. cbn [mk prev in_lit]. rewrite andb_false_r. cbn [obind andb].
  unfold check_literal. change ((c_close =? c_quote)%N) with false. cbn [andb]. unfold check_close. cbn [mk possible in_lit psub].
  rewrite H. cbn. destruct rp as [|[|] rp]; reflexivity.
Qed.
Lemma tail_steps t : forall rp il ps pn pr, (forall d, In d t -> (d =? c_close)%N = false) -> contains open_sub (pr :: t) = false ->
  exists il' ps' pr', steps (mk rp true il ps pn pr) t = Ok (mk rp true il' ps' (pn ++ t) pr').
Proof.
  induction t as [|c t IH]; intros rp il ps pn pr Hc Ho; [exists il, ps, pr; cbn; now rewrite app_nil_r|].
  apply contains_cons in Ho. destruct Ho as [Ho1 Ho2]. cbn [SubstModel.steps].
  assert (E : exists il', step (mk rp true il ps pn pr) c = Ok (mk rp true il' (ps ++ [c]) (pn ++ [c]) c)).
  { unfold SubstModel.step, check_open. cbn [mk prev in_lit]. rewrite Ho1. cbn [andb obind]. unfold check_literal. cbn [mk prev possible in_lit].
    assert (Hcc : (c =? c_close)%N = false) by (apply Hc; now left).
    destruct ((c =? c_quote)%N && negb (pr =? c_backslash)%N && true); unfold check_close; cbn [mk possible in_lit]; rewrite Hcc; cbn; eexists; reflexivity. }
  destruct E as (il' & ->). cbn [obind].
  destruct (IH rp il' (ps ++ [c]) (pn ++ [c]) c (fun d Hd => Hc d (or_intror Hd)) Ho2) as (a & b & e & ->).
  exists a, b, e. now rewrite <- app_assoc.
Qed.

Lemma concat_join l a b : forall x, concat_adjacent x (l ++ [Lit a; Lit b]) = concat_adjacent x (l ++ [Lit (a ++ b)]).
Proof.
  induction l as [|[t|n] l IH]; intros x; cbn [app concat_adjacent].
  - now rewrite <- app_assoc.
  - apply IH.
  - destruct x; now rewrite IH.
Qed.
Lemma fin_last ps : forall rp non, (non = [] -> rp = [] \/ exists n r, rp = Ref n :: r) -> Forall (piece_ok k) ps ->
  snd (fin ps non rp) = [] -> fst (fin ps non rp) = [] \/ exists n r, fst (fin ps non rp) = Ref n :: r.
Proof.
  induction ps as [|p ps IH]; intros rp non Hn Hok H; [exact (Hn H)|].
  inversion Hok as [|x l Hp Hps]; subst. destruct p as [t|n|n]; cbn [fin] in *.
  - apply IH; auto. intros E. apply app_eq_nil in E. destruct E as [_ E]. destruct Hp as [Hne _]. now elim Hne.
  - apply IH; auto. intros _. right. cbn. eauto.
  - apply IH; auto. intros _. right. cbn. eauto.
Qed.
Lemma meant_then_fin ps x : forall rp non, Forall (piece_ok k) ps -> separated ps ->
  (non = [] \/ match ps with PText _ :: _ => False | _ => True end) ->
  (non = [] -> rp = [] \/ exists n r, rp = Ref n :: r) ->
  rev (fst (fin ps non rp)) ++ [Lit (snd (fin ps non rp) ++ x)] =
  match ps with [] => rev rp ++ [Lit (non ++ x)] | _ => rev rp ++ lit non ++ meant_then ps x end.
Proof.
  induction ps as [|p ps IH]; intros rp non Hok Hsep Hn Hr; [reflexivity|].
  inversion Hok as [|y l Hp Hps]; subst. destruct p as [t|n|n]; cbn [fin].
  - destruct Hn as [->|[]]. cbn [app lit].
    assert (Ht : t <> []) by apply Hp. rewrite IH.
    + destruct ps as [|q ps]; [reflexivity|]. unfold lit. destruct t; [now elim Ht|]. reflexivity.
    + exact Hps.
    + destruct ps as [|[]]; [exact I|destruct Hsep|exact Hsep|exact Hsep].
    + right. destruct ps as [|[]]; auto.
    + intros E. now elim Ht.
  - rewrite IH; [|exact Hps|exact Hsep|now left|intros _; right; cbn; eauto].
    unfold addlit. destruct ps; destruct non; cbn; now rewrite <- ?app_assoc.
  - rewrite IH; [|exact Hps|exact Hsep|now left|intros _; right; cbn; eauto].
    unfold addlit. destruct ps; destruct non; cbn; now rewrite <- ?app_assoc.
Qed.
Lemma meant_then_apart ps x : Forall (piece_ok k) ps -> separated ps -> x <> [] -> apart (meant_then ps x).
Proof.
  induction ps as [|p ps IH]; intros Hok Hsep Hx; [cbn; auto|]. inversion Hok as [|y l Hp Hps]; subst.
  destruct p as [t|n|n].
  - destruct ps as [|q ps]; cbn [meant_then meant].
    + cbn. split; [|auto]. intros E. apply app_eq_nil in E. tauto.
    + change (apart (Lit t :: meant_then (q :: ps) x)). cbn [apart]. split; [apply Hp|].
      destruct q; [destruct Hsep| |]; (split; [cbn; destruct ps; exact I|apply IH; assumption]).
  - change (apart (Ref n :: meant_then ps x)). cbn [apart]. apply IH; assumption.
  - change (apart (Ref n :: meant_then ps x)). cbn [apart]. apply IH; assumption.
Qed.

Lemma other_kind_kept ps cs t : Forall (piece_ok k) ps -> separated ps -> other_kind cs ->
  (forall d, In d t -> d <> c_close) -> contains open_sub t = false ->
  parse_substitutions k (written_all ps ++ open_sub ++ inside cs ++ [c_close] ++ t)
  = Ok (meant_then ps (open_sub ++ inside cs ++ [c_close] ++ t)).
Proof.
  intros Hok Hsep (Hcs & Hv) Ht Ho. unfold parse_substitutions.
  rewrite contains_app_r by reflexivity. cbn [negb].
  destruct (pieces_steps ps [] [] 32%N Hok Hsep) as (pr' & E).
  { destruct ps as [|[u|n|n] ps]; auto. inversion Hok as [|x l Hu _]; subst. destruct Hu as [_ Hc]. cbn [contains]. rewrite orb_false_iff. split; [reflexivity|exact Hc]. }
  change init_st with (mk [] false false [] [] 32%N). rewrite steps_app, E. cbn [obind].
  pose proof (meant_then_fin ps (open_sub ++ inside cs ++ [c_close] ++ t) [] [] Hok Hsep (or_introl eq_refl) (fun _ => or_introl eq_refl)) as F.
  pose proof (fin_last ps [] [] (fun _ => or_introl eq_refl) Hok) as L.
  destruct (fin ps [] []) as [rp non]. cbn [fst snd] in *.
  assert (G : rev rp ++ [Lit (non ++ open_sub ++ inside cs ++ [c_close] ++ t)] = meant_then ps (open_sub ++ inside cs ++ [c_close] ++ t)).
  { rewrite F. destruct ps; reflexivity. }
  assert (A : concat_adjacent [] (meant_then ps (open_sub ++ inside cs ++ [c_close] ++ t)) = meant_then ps (open_sub ++ inside cs ++ [c_close] ++ t)).
  { apply concat_apart, meant_then_apart; [assumption|assumption|discriminate]. }
  rewrite steps_app, open_steps. cbn [obind]. rewrite steps_app.
  destruct (inside_steps cs (addlit non rp) [] (non ++ open_sub) c_open Hcs eq_refl) as (p1 & ->). cbn [obind app].
  change (c_close :: t) with ([c_close] ++ t). rewrite steps_app, steps_one, unsupported_step by exact Hv. cbn [obind].
  assert (Ht' : forall d, In d t -> (d =? c_close)%N = false) by (intros d Hd; apply N.eqb_neq; auto).
  assert (Ho' : contains open_sub (c_close :: t) = false) by (cbn [contains]; rewrite orb_false_iff; split; [reflexivity|exact Ho]).
  destruct non as [|c non].
  - cbn [addlit]. assert (R : rp = [] \/ exists n r, rp = Ref n :: r) by auto.
    replace (match rp with Lit _ :: r => _ | _ => _ end) with (mk rp true false (inside cs ++ [c_close]) ((([] ++ open_sub) ++ inside cs) ++ [c_close]) c_close)
      by (destruct R as [->|(n & r & ->)]; reflexivity).
    destruct (tail_steps t rp false (inside cs ++ [c_close]) ((([] ++ open_sub) ++ inside cs) ++ [c_close]) c_close Ht' Ho') as (a & b & e & ->).
    cbn [obind mk rev_parsed pnon]. f_equal. etransitivity; [|exact A]. rewrite <- G. f_equal.
    cbn. rewrite <- !app_assoc. reflexivity.
  - cbn [addlit].
    destruct (tail_steps t (Lit (((((c :: non) ++ open_sub) ++ inside cs) ++ [c_close])) :: rp) false (inside cs ++ [c_close]) [] c_close Ht' Ho') as (a & b & e & ->).
    cbn [obind mk rev_parsed pnon app]. f_equal. etransitivity; [|exact A]. rewrite <- G.
    destruct t as [|d t]; cbn [rev app].
    + rewrite app_nil_r. do 3 f_equal. cbn. now rewrite <- !app_assoc.
    + rewrite <- app_assoc. cbn [app]. rewrite concat_join. do 3 f_equal. cbn. rewrite <- !app_assoc. cbn. rewrite <- ?app_assoc. reflexivity.
Qed.
End WithClasses.
