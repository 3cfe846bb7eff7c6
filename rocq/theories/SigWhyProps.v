(** C136: a refused request is told why. *)
From Verif Require Import Base Text SigModel SigSpec SigProofs SigWhySpec SigProps.
Open Scope string_scope.
Local Open Scope N_scope.

Lemma key_part_error p : has_char "," p = false -> unpack_key_id p <> Panic ->
  (forall k, unpack_key_id p <> Ok k) -> unpack_key_id p = Err (InvalidSignature "Invalid key ID header part format").
Proof.
  intros C P O. revert P O. unfold unpack_key_id. destruct (split_on "=" p) as [|n [|v [|]]]; auto.
  destruct (String.eqb _ _); auto. unfold strip_quotes. destruct (_ <? _)%nat; [congruence|]. intros _ O. elim (O _ eq_refl).
Qed.
Lemma headers_part_err p : has_char "," p = false -> unpack_headers p <> Panic ->
  (forall k, unpack_headers p <> Ok k) -> unpack_headers p = Err (InvalidSignature "Invalid ""headers"" header part format").
Proof.
  intros C P O. revert P O. unfold unpack_headers. destruct (split_on "=" p) as [|n [|v [|]]]; auto.
  destruct (String.eqb _ _); auto. unfold strip_quotes. destruct (_ <? _)%nat; [cbn; congruence|]. intros _ O. elim (O _ eq_refl).
Qed.
Lemma sig_part_error p : has_char "," p = false -> unpack_signature_value p <> Panic ->
  (forall k, unpack_signature_value p <> Ok k) -> unpack_signature_value p = Err (InvalidSignature "Invalid signature header part format").
Proof.
  intros C P O. revert P O. unfold unpack_signature_value. destruct (split_on "=" p) as [|n [|v [|]]]; auto.
  destruct (String.eqb _ _); auto. unfold strip_quotes. destruct (_ <? _)%nat; [congruence|]. intros _ O. elim (O _ eq_refl).
Qed.

Lemma headers_part p v : has_char "," p = false -> part "headers" v p -> exists ns, unpack_headers p = Ok ns /\ v = join " " ns /\ ns <> [] /\ Forall (fun n => has_char " " n = false) ns.
Proof.
  intros C H. exists (split_on " " v). assert (J: v = join " " (split_on " " v)) by (symmetry; exact (join_split_on " " v)).
  assert (N: split_on " " v <> []) by apply split_on_nil.
  assert (F: Forall (fun n => has_char " " n = false) (split_on " " v)) by apply split_on_pieces.
  split; [|auto]. apply unpack_headers_spec; [exact C|]. rewrite <- J. auto.
Qed.

(** The header text *)
Lemma unpack_err h e : values_quoted h -> (unpack_signature h = Err e <-> exists t, e = InvalidSignature t /\ malformed h t).
Proof.
  intros Q. pose proof (unpack_no_panic h Q) as NP. split.
  - revert NP. unfold unpack_signature.
    assert (B: forall x y z, split_on "," h = [x; y; z] -> three_parts h x y z) by (intros x y z E; apply split3 in E; exact E).
    assert (T: (forall x y z, split_on "," h <> [x; y; z]) -> malformed h "Invalid signature header format").
    { intros N. constructor. intros p0 p1 p2 (E & C0 & C1 & C2). apply (N p0 p1 p2). apply split3. auto. }
    destruct (split_on "," h) as [|p0 [|p1 [|p2 [|]]]] eqn:E.
    1,2,3,5: intros _ H; inversion H; eexists; split; [reflexivity|]; apply T; intros; discriminate.
    specialize (B _ _ _ eq_refl). destruct B as (Eh & C0 & C1 & C2).
    destruct (unpack_key_id p0) as [k|e0|] eqn:E0; cbn [obind].
    2:{ intros _ H. assert (X: unpack_key_id p0 = Err (InvalidSignature "Invalid key ID header part format")) by (apply key_part_error; congruence).
        rewrite X in E0. exists "Invalid key ID header part format". split; [congruence|]. apply (Bad_key h p0 p1 p2); [repeat split; assumption|].
        intros k Hk. apply unpack_key_spec in Hk; [congruence|exact C0]. }
    2: congruence.
    apply unpack_key_spec in E0; [|exact C0].
    destruct (unpack_headers p1) as [ns|e0|] eqn:E1; cbn [obind].
    2:{ intros _ H. assert (X: unpack_headers p1 = Err (InvalidSignature "Invalid ""headers"" header part format")) by (apply headers_part_err; congruence).
        rewrite X in E1. eexists. split; [|apply (Bad_headers h p0 p1 p2 k); [repeat split; assumption|exact E0|]]; [congruence|].
        intros v Hv. destruct (headers_part p1 v C1 Hv) as (ns & Hn & _). congruence. }
    2: congruence.
    apply unpack_headers_spec in E1; [|exact C1].
    destruct (unpack_signature_value p2) as [s|e0|] eqn:E2; cbn [obind]; [intros; discriminate| |congruence].
    intros _ H. assert (X: unpack_signature_value p2 = Err (InvalidSignature "Invalid signature header part format")) by (apply sig_part_error; congruence).
    rewrite X in E2. eexists. split; [|apply (Bad_signature h p0 p1 p2 k (join " " ns)); [repeat split; assumption|exact E0|tauto|]]; [congruence|].
    intros v Hv. apply unpack_sig_spec in Hv; [congruence|exact C2].
  - intros (t & -> & M). revert NP. unfold unpack_signature. destruct M as [N|p0 p1 p2 (Eh & C0 & C1 & C2) N|p0 p1 p2 k (Eh & C0 & C1 & C2) K N|p0 p1 p2 k v (Eh & C0 & C1 & C2) K V N].
    + assert (T: forall x y z, split_on "," h <> [x; y; z]) by (intros x y z E; apply split3 in E; exact (N _ _ _ E)).
      destruct (split_on "," h) as [|p0 [|p1 [|p2 [|]]]]; try reflexivity. elim (T _ _ _ eq_refl).
    + rewrite (proj2 (split3 _ p0 p1 p2)) by auto. intros NP.
      rewrite key_part_error; [reflexivity|exact C0| |intros k E; apply unpack_key_spec in E; [exact (N _ E)|exact C0]].
      intros E. rewrite E in NP. cbn in NP. congruence.
    + rewrite (proj2 (split3 _ p0 p1 p2)) by auto. rewrite (proj2 (unpack_key_spec p0 k C0) K). cbn [obind]. intros NP.
      rewrite headers_part_err; [reflexivity|exact C1| |intros ns E; apply unpack_headers_spec in E; [exact (N _ (proj1 E))|exact C1]].
      intros E. rewrite E in NP. cbn in NP. congruence.
    + rewrite (proj2 (split3 _ p0 p1 p2)) by auto. rewrite (proj2 (unpack_key_spec p0 k C0) K). cbn [obind].
      destruct (headers_part p1 v C1 V) as (ns & -> & _). cbn [obind]. intros NP.
      rewrite sig_part_error; [reflexivity|exact C2| |intros s E; apply unpack_sig_spec in E; [exact (N _ E)|exact C2]].
      intros E. rewrite E in NP. cbn in NP. congruence.
Qed.

Lemma to_str_none v : to_str v = None <-> ~ header_text v.
Proof.
  destruct (to_str v) as [s|] eqn:E; split; intros H; try discriminate; auto.
  - apply to_str_spec in E. tauto.
  - intros T. assert (to_str v = Some v) by (apply to_str_spec; auto). congruence.
Qed.

Definition date_error (o : option string) : sig_error := match o with None => DateHeaderMissing | Some e => InvalidSignature e end.
Lemma date_err m e : extract_date_from_header m = Err e <-> exists o, e = date_error o /\ bad_date m o.
Proof.
  unfold extract_date_from_header, hget. change (lower DATE_HEADER_NAME) with (lower "bluelink-date"). split.
  - destruct (lookup (lower "bluelink-date") m) as [v|] eqn:L.
    + destruct (to_str v) as [s|] eqn:T.
      * apply to_str_spec in T. destruct T as [-> T]. destruct (parse_u64 v) as [d|] eqn:P; [discriminate|]. intros H; inversion H.
        exists (Some "Invalid date"). split; [reflexivity|]. apply (Date_no_number _ v); [exact L|exact T|].
        intros d (s & Hs & _ & Hd). unfold has_header in Hs. assert (s = v) by congruence. subst s. apply parse_u64_spec in Hd. congruence.
      * apply to_str_none in T. intros H; inversion H. exists (Some "Invalid date header"). split; [reflexivity|]. apply (Date_unreadable _ v); assumption.
    + intros H; inversion H. exists None. split; [reflexivity|]. constructor. unfold has_header. congruence.
  - intros (o & -> & [N|v L T|v L T N]); unfold has_header in *.
    + destruct (lookup (lower "bluelink-date") m) as [v|]; [elim (N v eq_refl)|reflexivity].
    + rewrite L. apply to_str_none in T. rewrite T. reflexivity.
    + rewrite L. rewrite (proj2 (to_str_spec v v)) by auto. destruct (parse_u64 v) as [d|] eqn:P; [|reflexivity].
      elim (N d). exists v. apply parse_u64_spec in P. unfold has_header. tauto.
Qed.

Definition header_error (n : string) (b : bool) : msg_error := if b then MCustomHeadersMissing [n] else MInvalidCustomHeader.
Definition listed (n : string) : bool := if string_dec n "bluelink-date" then false else true.
Lemma collect_err m ns e : collect_headers m (filter listed ns) = Err e <-> exists n b, e = header_error n b /\ first_bad m ns n b.
Proof.
  revert e. induction ns as [|n ns IH]; intros e; cbn [filter].
  - split; [discriminate|]. intros (n & b & _ & (p & q & E & _)). destruct p; discriminate.
  - unfold listed at 1. destruct (string_dec n "bluelink-date") as [->|Hn].
    + rewrite IH. split; intros (x & b & -> & (p & q & E & D & P & B)); exists x, b; (split; [reflexivity|]).
      * exists ("bluelink-date" :: p), q. split; [now rewrite E|]. split; [exact D|]. split; [|exact B]. intros y [<-|Hy]; auto.
      * destruct p as [|y p]; [cbn in E; inversion E; congruence|]. cbn in E. inversion E; subst. exists p, q. split; [reflexivity|].
        split; [exact D|]. split; [|exact B]. intros z Hz. apply P. now right.
    + cbn [collect_headers]. unfold custom_header, hget. destruct (lookup (lower n) m) as [v|] eqn:L.
      * destruct (to_str v) as [s|] eqn:T; cbn [obind].
        -- apply to_str_spec in T. destruct T as [-> T].
           assert (X: (exists n b, e = header_error n b /\ first_bad m ns n b) <-> (exists x b, e = header_error x b /\ first_bad m (n :: ns) x b)).
           { split; intros (x & b & -> & (p & q & E & D & P & B)); exists x, b; (split; [reflexivity|]).
             - exists (n :: p), q. split; [now rewrite E|]. split; [exact D|]. split; [|exact B]. intros y [<-|Hy]; [right; exists v; split; assumption|auto].
             - destruct p as [|y p]; cbn in E; inversion E; subst.
               + exfalso. destruct b; [exact (B v L)|]. destruct B as (w & W & NW). unfold has_header in W. congruence.
               + exists p, q. split; [reflexivity|]. split; [exact D|]. split; [|exact B]. intros z Hz. apply P. now right. }
           rewrite <- X, <- IH. destruct (collect_headers m (filter listed ns)); cbn [obind]; split; intros H; try discriminate; congruence.
        -- apply to_str_none in T. split.
           ++ intros H; inversion H. exists n, false. split; [reflexivity|]. exists [], ns. split; [reflexivity|]. split; [exact Hn|]. split; [intros ? []|]. exists v. split; assumption.
           ++ intros (x & b & -> & (p & q & E & D & P & B)). destruct p as [|y p]; cbn in E; inversion E; subst.
              ** destruct b; [elim (B v L)|reflexivity].
              ** exfalso. destruct (P y (or_introl eq_refl)) as [->|(w & W & T')]; [congruence|]. unfold has_header in W. congruence.
      * cbn [obind]. split.
        -- intros H; inversion H. exists n, true. split; [reflexivity|]. exists [], ns. split; [reflexivity|]. split; [exact Hn|]. split; [intros ? []|]. unfold has_header. congruence.
        -- intros (x & b & -> & (p & q & E & D & P & B)). destruct p as [|y p]; cbn in E; inversion E; subst.
           ++ destruct b; [reflexivity|]. destruct B as (w & W & _). unfold has_header in W. congruence.
           ++ exfalso. destruct (P y (or_introl eq_refl)) as [->|(w & W & T')]; [congruence|]. unfold has_header in W. congruence.
Qed.

Lemma message_err kp m ns e : create_message kp m ns = Err e <->
  (exists o, e = msg_error_of (date_error o) /\ bad_date m o) \/ (exists d n b, e = header_error n b /\ request_date m d /\ first_bad m ns n b).
Proof.
  unfold create_message. rewrite (filter_ext _ _ not_date). change (fun n => if string_dec n "bluelink-date" then false else true) with listed.
  destruct (extract_date_from_header m) as [d|e0|] eqn:D; cbn [map_err obind].
  - apply date_spec in D. split.
    + destruct (collect_headers m (filter listed ns)) as [t|e1|] eqn:C; cbn [obind]; try discriminate. intros H; inversion H; subst.
      apply collect_err in C. destruct C as (n & b & -> & B). right. exists d, n, b. auto.
    + intros [(o & -> & B)|(d' & n & b & -> & _ & B)].
      * exfalso. apply date_spec in D. assert (X: extract_date_from_header m = Err (date_error o)) by (apply date_err; eauto). congruence.
      * rewrite (proj2 (collect_err m ns (header_error n b))) by eauto. reflexivity.
  - apply date_err in D. destruct D as (o & -> & B). split.
    + intros H; inversion H. left. eauto.
    + assert (X: extract_date_from_header m = Err (date_error o)) by (apply date_err; eauto).
      intros [(o' & -> & B')|(d & n & b & _ & D & _)].
      * assert (X': extract_date_from_header m = Err (date_error o')) by (apply date_err; eauto). congruence.
      * apply date_spec in D. congruence.
  - elim (extract_no_panic m D).
Qed.

Section Why.
Variable hmac : string -> string -> string.

(** A request is refused with an error exactly when that is the error of the first thing that
    is wrong with it. *)
Theorem C136_refusals : forall checked pairs m now sk e,
  (forall h, has_header m "bluelink-signature-v1" h -> values_quoted h) ->
  (forall d, request_date m d -> skew_of sk <= d /\ d + skew_of sk < two64) ->
  (verify_signature hmac checked pairs m now sk = Err e <-> refusal hmac pairs m now sk e).
Proof.
  intros checked pairs m now sk e Hh Hd. split.
  - unfold verify_signature, hget. change (lower SIGNATURE_HEADER_NAME) with (lower "bluelink-signature-v1").
    destruct (lookup (lower "bluelink-signature-v1") m) as [h|] eqn:L.
    2:{ intros H; inversion H. constructor. unfold has_header. congruence. }
    specialize (Hh h L). destruct (to_str h) as [h'|] eqn:T.
    2:{ intros H; inversion H. apply to_str_none in T. apply (Unreadable _ _ _ _ _ h); assumption. }
    apply to_str_spec in T. destruct T as [-> T].
    destruct (unpack_signature h) as [[k sg ns]|e0|] eqn:U; cbn [obind sp_key_id sp_headers sp_signature].
    3: { elim (unpack_no_panic h Hh U). }
    2:{ intros H; inversion H; subst. apply unpack_err in U; [|exact Hh]. destruct U as (t & -> & M). apply (Malformed _ _ _ _ _ h); assumption. }
    apply unpack_spec in U. destruct (lookup k pairs) as [kp|] eqn:K.
    2:{ intros H; inversion H. apply (Unknown_key _ _ _ _ _ h k ns sg); assumption. }
    destruct (create_message kp m ns) as [t|e0|] eqn:M; cbn [map_err obind].
    3: { elim (message_no_panic kp m ns M). }
    2:{ intros H; inversion H; subst. apply message_err in M. destruct M as [(o & -> & B)|(d & n & b & -> & D & B)].
        - replace (sig_error_of (msg_error_of (date_error o))) with (date_error o) by (destruct o; reflexivity).
          apply (No_date _ _ _ _ _ h k kp ns sg o); assumption.
        - replace (sig_error_of (header_error n b)) with (if b then CustomHeadersMissing [n] else InvalidSignature "Custom header is invalid") by (destruct b; reflexivity).
          apply (Bad_header _ _ _ _ _ h k kp ns sg d n b); assumption. }
    apply message_spec in M. destruct M as (d & fs & D & F & ->). intros H.
    assert (X: b64_decode sg = Some (hmac (secret_key kp) (signed_text (key_id kp) d fs)) \/ b64_decode sg <> Some (hmac (secret_key kp) (signed_text (key_id kp) d fs))).
    { destruct (b64_decode sg) as [c|]; [|right; discriminate]. destruct (string_dec c (hmac (secret_key kp) (signed_text (key_id kp) d fs))) as [->|N]; [now left|right; congruence]. }
    destruct X as [X|X].
    + assert (A: authentic hmac pairs m k kp ns d fs) by (exists h, sg; auto 10).
      pose proof (authentic_check hmac pairs m k kp ns d fs checked now sk A) as C. destruct (Hd d D) as [R1 R2].
      rewrite (date_check_in_range checked d now _ R1 R2) in C.
      unfold verify_signature, hget in C. change (lower SIGNATURE_HEADER_NAME) with (lower "bluelink-signature-v1") in C.
      rewrite L, (proj2 (to_str_spec h h)) in C by auto. rewrite (proj2 (unpack_spec h k ns sg) U) in C. cbn [obind sp_key_id sp_headers sp_signature] in C.
      rewrite K in C. rewrite (proj2 (message_spec kp m ns (signed_text (key_id kp) d fs))) in C by eauto. cbn [map_err obind] in C.
      rewrite H in C. destruct ((d - skew_of sk <=? now) && (now <=? d + skew_of sk)) eqn:W; [discriminate|]. inversion C.
      apply (Stale _ _ _ _ _ k kp ns d fs A). apply andb_false_iff in W. rewrite !N.leb_gt in W. exact W.
    + assert (e = InvalidSignature "Invalid signature"). 
      { revert H. unfold verify_message. destruct (b64_decode sg) as [c|]; [|cbn [obind]; congruence].
        destruct (String.eqb_spec (hmac (secret_key kp) (signed_text (key_id kp) d fs)) c) as [<-|]; [congruence|cbn [obind]; congruence]. }
      subst e. apply (Forged _ _ _ _ _ h k kp ns sg d fs); assumption.
  - assert (Lk: forall h, has_header m "bluelink-signature-v1" h -> header_text h -> forall k ns sg, presents h k ns sg ->
       verify_signature hmac checked pairs m now sk =
       match lookup k pairs with
       | None => Err (InvalidSignature "Invalid key ID")
       | Some kp => let! msg := map_err sig_error_of (create_message kp m ns) in let! _ := verify_message hmac kp msg sg in
                    let! date := extract_date_from_header m in date_check checked date now (skew_of sk) end).
    { intros h L T k ns sg P. unfold verify_signature, hget. change (lower SIGNATURE_HEADER_NAME) with (lower "bluelink-signature-v1").
      unfold has_header in L. rewrite L, (proj2 (to_str_spec h h)) by auto. rewrite (proj2 (unpack_spec h k ns sg) P). reflexivity. }
    intros R. destruct R as [N|h L T|h e L T M|h k ns sg L T P K|h k kp ns sg o L T P K B|h k kp ns sg d n b L T P K D B|h k kp ns sg d fs L T P K D F X|k kp ns d fs A W].
    + unfold verify_signature, hget. change (lower SIGNATURE_HEADER_NAME) with (lower "bluelink-signature-v1").
      unfold has_header in N. destruct (lookup (lower "bluelink-signature-v1") m) as [h|]; [elim (N h eq_refl)|reflexivity].
    + unfold verify_signature, hget. change (lower SIGNATURE_HEADER_NAME) with (lower "bluelink-signature-v1").
      unfold has_header in L. rewrite L. apply to_str_none in T. rewrite T. reflexivity.
    + unfold verify_signature, hget. change (lower SIGNATURE_HEADER_NAME) with (lower "bluelink-signature-v1").
      unfold has_header in L. rewrite L, (proj2 (to_str_spec h h)) by auto.
      rewrite (proj2 (unpack_err h (InvalidSignature e) (Hh h L))) by eauto. reflexivity.
    + rewrite (Lk _ L T _ _ _ P), K. reflexivity.
    + rewrite (Lk _ L T _ _ _ P), K. rewrite (proj2 (message_err kp m ns (msg_error_of (date_error o)))) by eauto.
      destruct o; reflexivity.
    + rewrite (Lk _ L T _ _ _ P), K. rewrite (proj2 (message_err kp m ns (header_error n b))) by eauto 8.
      destruct b; reflexivity.
    + rewrite (Lk _ L T _ _ _ P), K. rewrite (proj2 (message_spec kp m ns (signed_text (key_id kp) d fs))) by eauto. cbn [map_err obind].
      unfold verify_message. destruct (b64_decode sg) as [c|]; [|reflexivity].
      destruct (String.eqb_spec (hmac (secret_key kp) (signed_text (key_id kp) d fs)) c) as [<-|]; [congruence|reflexivity].
    + rewrite (authentic_check hmac pairs m k kp ns d fs checked now sk A).
      assert (D: request_date m d) by (destruct A as (? & ? & _ & _ & _ & _ & D & _); exact D).
      destruct (Hd d D) as [R1 R2]. rewrite (date_check_in_range checked d now _ R1 R2).
      replace ((d - skew_of sk <=? now) && (now <=? d + skew_of sk)) with false; [reflexivity|].
      symmetry. apply andb_false_iff. rewrite !N.leb_gt. exact W.
Qed.

(** Signing fails exactly with the error of the date it was given or of the first listed
    header it cannot sign. *)
Theorem C136_signing : forall kp m ns now e, now < two64 ->
  (create_signature_header hmac kp m ns now = Err e <-> unsigned m now ns e).
Proof.
  intros kp m ns now e Hn. unfold create_signature_header.
  assert (S: match hget DATE_HEADER_NAME m with None => hset DATE_HEADER_NAME (dec now) m | Some _ => m end = dated m now).
  { unfold dated, hget, hset. change (lower DATE_HEADER_NAME) with "bluelink-date". destruct (lookup "bluelink-date" m); reflexivity. }
  rewrite S. assert (ND: ~ bad_date (dated m now) None).
  { intros B. inversion B as [N| |]. unfold dated in N. destruct (lookup "bluelink-date" m) as [v|] eqn:L; [exact (N v L)|].
    apply (N (dec now)). unfold has_header. change (lower "bluelink-date") with "bluelink-date". apply lookup_insert_eq. }
  split.
  - destruct (create_message kp (dated m now) ns) as [t|e0|] eqn:M; cbn [obind]; try discriminate. intros H; inversion H; subst.
    apply message_err in M. destruct M as [([t|] & -> & B)|(d & n & b & -> & D & B)]; [now constructor|contradiction|].
    exact (Unsigned_header m now ns d n b D B).
  - intros U. destruct U as [t B|d n b D B].
    + rewrite (proj2 (message_err kp (dated m now) ns (MUnknownError t))); [reflexivity|]. left. exists (Some t). auto.
    + rewrite (proj2 (message_err kp (dated m now) ns (header_error n b))) by eauto 8. reflexivity.
Qed.
End Why.

(** A header with a byte outside the readable ones is refused wherever it is read. *)
Example C136_nonvacuous :
  (forall h, has_header [("bluelink-signature-v1", String "200" "")] "bluelink-signature-v1" h -> values_quoted h) /\
  refusal toy_mac [] [("bluelink-signature-v1", String "200" "")] 5 None (InvalidSignature "failed to convert header to a str") /\
  refusal toy_mac [("test-key-id", ex_kp)] (hset "x-custom-header" (String "127" "") ex_signed) 1727895652 None (InvalidSignature "Custom header is invalid") /\
  refusal toy_mac [("test-key-id", ex_kp)] ex_signed 1727895953 None (InvalidSignature "Signature has expired") /\
  unsigned [("bluelink-date", "soon")] 7 ["a"] (MUnknownError "Invalid date") /\
  unsigned [] 7 ["a"; "b"] (MCustomHeadersMissing ["a"]).
Proof.
  split.
  { intros h H a b E. vm_compute in H. inversion H; subst h. destruct a as [|x a]; [discriminate|]. destruct a; discriminate. }
  split.
  { apply (Unreadable _ _ _ _ _ (String "200" "")); [reflexivity|]. intros H. destruct (H 0%nat _ eq_refl) as [[_ X]|X]; [now elim X|discriminate]. }
  split.
  { destruct (lookup "bluelink-signature-v1" ex_signed) as [h|] eqn:L; [|vm_compute in L; discriminate].
    assert (P: presents h "test-key-id" ["bluelink-date"; "x-custom-header"; "content-type"]
      (b64_encode (toy_mac "test-secret_key" "test-key-id,bluelink-date=1727895652,x-custom-header=custom-value,content-type=a/b; c=d"))).
    { pose proof C38_nonvacuous as (_ & P & _). rewrite L in P. exact P. }
    assert (T: header_text h) by (apply header_text_visible; vm_compute in L; inversion L; subst h; reflexivity).
    eapply (Bad_header _ _ _ _ _ h _ ex_kp _ _ 1727895652 "x-custom-header" false); [|exact T|exact P|reflexivity| |].
    - unfold has_header, hset. change (lower "x-custom-header") with "x-custom-header". rewrite lookup_insert_ne by discriminate. exact L.
    - apply date_spec. vm_compute. reflexivity.
    - exists ["bluelink-date"], ["content-type"]. split; [reflexivity|]. split; [discriminate|]. split; [intros ? [<-|[]]; now left|].
      exists (String "127" ""). split; [reflexivity|]. intros H. destruct (H 0%nat _ eq_refl) as [[_ X]|X]; [now elim X|discriminate]. }
  split.
  { pose proof C39_nonvacuous as ((ns & fs & A) & _). apply (Stale _ _ _ _ _ _ _ _ _ _ A). right. reflexivity. }
  split.
  { constructor. apply (Date_no_number _ "soon"); [reflexivity|apply header_text_visible; reflexivity|].
    intros d D. apply date_spec in D. vm_compute in D. discriminate. }
  apply (Unsigned_header [] 7 ["a"; "b"] 7 "a" true); [apply created_date; [reflexivity|reflexivity]|].
  exists [], ["b"]. split; [reflexivity|]. split; [discriminate|]. split; [intros ? []|]. intros v H. vm_compute in H. discriminate.
Qed.

Print Assumptions C136_refusals.
Print Assumptions C136_signing.
