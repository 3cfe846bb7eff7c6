(** C27: the scanner. *)
From Verif Require Import Base Chars ScannerModel ScannerSpec ScannerProofs.
Local Open Scope nat_scope.
Local Open Scope list_scope.

(** Whatever operations are called, in whatever order, on whatever input: the input is not
    changed, and the cursor never leaves it. *)
Theorem C27_cursor_stays_inside : forall (input : text) (ops : list op),
  let s := run_ops ops (new_scanner input) in
  sc_chars s = input /\ sc_pos s <= length input /\ is_suffix (remaining s) input.
Proof.
  intros input ops s. destruct (run_valid ops (new_scanner input) (new_valid input)) as [[V1 _] E].
  fold s in V1, E. cbn in E. rewrite E in V1. split; [exact E|]. split; [exact V1|].
  exists (firstn (sc_pos s) input). unfold remaining. rewrite E. symmetry. apply firstn_skipn.
Qed.

(** Only backtracking moves the cursor to the left. *)
Theorem C27_reads_left_to_right : forall s o, o <> OBacktrack ->
  sc_pos s <= sc_pos (apply o s) /\ is_suffix (remaining (apply o s)) (remaining s).
Proof.
  intros s o H. destruct o; try (apply read_forward; discriminate || assumption).
  - cbn. split; [lia|]. exists []. reflexivity.
  - cbn. split; [lia|]. exists []. reflexivity.
Qed.

(** [peek] shows the next character and [pop] consumes exactly it; [take] consumes it only
    when it is the wanted one. *)
Theorem C27_peek_pop_take : forall s,
  peek s = hd_error (remaining s) /\
  match remaining s with
  | c :: rest => fst (pop s) = Some c /\ remaining (snd (pop s)) = rest
  | [] => fst (pop s) = None /\ snd (pop s) = s
  end /\
  (forall c, match remaining s with
             | d :: rest => if N.eqb c d then fst (take c s) = true /\ remaining (snd (take c s)) = rest
                            else fst (take c s) = false /\ snd (take c s) = s
             | [] => fst (take c s) = false /\ snd (take c s) = s
             end).
Proof. intros s. split; [apply peek_remaining|]. split; [apply pop_reads|]. intros c. apply take_reads. Qed.

(** [transform] consumes the next character exactly when the callback has a value for it. *)
Theorem C27_transform : forall s (cb : N -> option N),
  match remaining s with
  | c :: rest => fst (transform cb s) = cb c /\
      (forall t, cb c = Some t -> remaining (snd (transform cb s)) = rest) /\
      (cb c = None -> snd (transform cb s) = s)
  | [] => fst (transform cb s) = None /\ snd (transform cb s) = s
  end.
Proof.
  intros s cb. pose proof (peek_remaining s) as P. unfold transform. fold (peek s). destruct (peek s) as [d|] eqn:E.
  - rewrite (rest_step s d E). destruct (cb d); cbn; repeat split; congruence.
  - destruct (remaining s); [cbn; auto|discriminate].
Qed.

(** The end is reported exactly when nothing is left. *)
Theorem C27_end : forall input ops, let s := run_ops ops (new_scanner input) in is_end s = true <-> remaining s = [].
Proof.
  intros input ops s. destruct (C27_cursor_stays_inside input ops) as (E & L & _). fold s in E, L. unfold is_end, remaining.
  rewrite E, Nat.eqb_eq. split; intros H.
  - rewrite H. apply skipn_all.
  - assert (K : length (skipn (sc_pos s) input) = 0) by now rewrite H. rewrite skipn_length in K. lia.
Qed.

(** Reading to the end gives the input back, in order. *)
Theorem C27_reads_everything : forall input, pop_all (length input) (new_scanner input) = input.
Proof. intros input. rewrite pop_all_spec. unfold remaining. cbn. apply firstn_all. Qed.

(** Backtracking returns to the state of the matching save, whatever happened in between. *)
Theorem C27_backtrack_restores : forall input before between,
  nested between ->
  let s := run_ops before (new_scanner input) in
  run_ops (OSave :: between ++ [OBacktrack]) s = s.
Proof. intros input before between Hn s. apply backtrack_restores; [|exact Hn]. apply run_valid, new_valid. Qed.

(** A scan that reports no match leaves everything where it was; a scan that reports a match
    consumed a text for which the callback gave that value; and a scan that fails may have
    consumed some of the input, the rest being a suffix of what was there. *)
Theorem C27_scan : forall s (cb : text -> option (scan_action N)),
  (fst (scan cb s) = inl None -> snd (scan cb s) = s) /\
  (forall t, fst (scan cb s) = inl (Some t) ->
     exists consumed, remaining s = consumed ++ remaining (snd (scan cb s)) /\
       (cb consumed = Some (Request t) \/ cb consumed = Some (Return t))) /\
  is_suffix (remaining (snd (scan cb s))) (remaining s).
Proof.
  intros s cb. split; [apply scan_none|]. split; [intros t; apply scan_match|].
  apply (read_forward (OScan cb) s); discriminate.
Qed.

(** The whole behaviour of a scan: what it consumes and what it reports. *)
Theorem C27_scan_exact : forall s (cb : text -> option (scan_action N)),
  exists consumed rest, remaining s = consumed ++ rest /\ sc_pos (snd (scan cb s)) = sc_pos s + length consumed /\
    scanned cb (sc_pos s) consumed rest (fst (scan cb s)).
Proof. intros s cb. apply scan_scanned. Qed.

(** A failing scan does not go back on its own: the callers have to do that. *)
Theorem C27_failed_scan_consumes : exists (cb : text -> option (scan_action N)) input e,
  fst (scan cb (new_scanner input)) = inr e /\ remaining (snd (scan cb (new_scanner input))) <> input.
Proof.
  exists (fun t => if text_eqb t (chars "t") then Some Require else None), (chars "t5"), (ErrCharacter 1).
  split; [vm_compute; reflexivity|]. vm_compute. discriminate.
Qed.

Example C27_nonvacuous :
  let cb := fun t => if text_eqb t (chars "n") then Some Require else if text_eqb t (chars "nu") then Some (Return 7%N) else None in
  nested [OPop; OSave; OTake 117%N; OPopPos; OScan cb] /\
  sc_pos (run_ops [OPop; OSave; OTake 117%N; OPopPos; OScan cb] (new_scanner (chars "xunux"))) = 4 /\
  sc_pos (run_ops [OPop; OSave; OPop; OSave; OTake 110%N; OPopPos; OBacktrack] (new_scanner (chars "xunux"))) = 1.
Proof.
  split.
  - apply nest_step; try discriminate. apply (nest_block [OTake 117%N] OPopPos).
    + apply nest_step; try discriminate. constructor.
    + now left.
    + apply nest_step; try discriminate. constructor.
  - split; vm_compute; reflexivity.
Qed.

Print Assumptions C27_cursor_stays_inside.
Print Assumptions C27_reads_left_to_right.
Print Assumptions C27_peek_pop_take.
Print Assumptions C27_transform.
Print Assumptions C27_end.
Print Assumptions C27_reads_everything.
Print Assumptions C27_backtrack_restores.
Print Assumptions C27_scan.
Print Assumptions C27_scan_exact.
Print Assumptions C27_failed_scan_consumes.
