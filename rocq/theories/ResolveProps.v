(** Resolving substitutions in a blueprint (C54, C55, C64, C66). *)
From Verif Require Import Base Chars SubstModel SubstSafe ResolveModel ResolveSpec ResolveProofs ResolveDocs.
Local Open Scope list_scope.

Section Params.
Variable F : Type.
Variable parse_f64 : text -> option F.
Variable env : text -> option text.

(** A string resolves to the concatenation of its literals and the values of the variables it
    refers to, or fails because one of them is missing. *)
Theorem C54_string : forall ps,
  (forall t, resolve_to_string env ps = Ok t <-> parts_text env ps t) /\
  (resolve_to_string env ps = Err MissingVariable <-> refers_to_missing env ps).
Proof.
  intros ps. destruct (to_string_total env ps) as [(u & Hu)|[Hm He]].
  - pose proof (to_string_ok env ps u Hu) as Eu. split.
    + intros t. split; [intros H; rewrite Eu in H; injection H as <-; exact Hu|apply to_string_ok].
    + split; [intros H; congruence|intros H; elim (text_not_missing env ps u Hu H)].
  - split.
    + intros t. split; [intros H; congruence|intros Ht; elim (text_not_missing env ps t Ht Hm)].
    + split; auto.
Qed.
(** A lone reference gets the type of its value; everything else is text. *)
Theorem C54_typed : forall ps, ps <> [] ->
  (forall s, resolve_scalar F parse_f64 env ps = Ok s <-> parts_scalar F parse_f64 env ps s) /\
  (resolve_scalar F parse_f64 env ps = Err MissingVariable <-> refers_to_missing env ps).
Proof.
  intros ps Hne. destruct (scalar_total F parse_f64 env ps Hne) as [(u & Hu)|[Hm He]].
  - pose proof (scalar_ok F parse_f64 env ps u Hne Hu) as Eu. split.
    + intros t. split; [intros H; rewrite Eu in H; injection H as <-; exact Hu|now apply scalar_ok].
    + split; [intros H; congruence|intros H; elim (scalar_not_missing F parse_f64 env ps u Hu H)].
  - split.
    + intros t. split; [intros H; congruence|intros Ht; elim (scalar_not_missing F parse_f64 env ps t Ht Hm)].
    + split; auto.
Qed.
(** The type of a value is one and only one. *)
Theorem C54_one_type : forall v, exists s, typed F parse_f64 v s /\ forall s', typed F parse_f64 v s' -> s' = s.
Proof.
  intros v. destruct (typed_of F parse_f64 (fun _ => None) v) as (s & T & _). exists s. split; [exact T|].
  intros s' T'. exact (typed_unique F parse_f64 v s' s T' T).
Qed.

(** A mapping resolves exactly when nothing in it is more than 20 levels deep and every
    variable is there; the result has its shape, each leaf resolved. *)
Theorem C55_mapping : forall n, proper F n ->
  ((exists r, resolve_mapping F parse_f64 env n = Ok r) <-> ~ deeper_than F 20 n /\ ~ node_missing F env n) /\
  (forall r, resolve_mapping F parse_f64 env n = Ok r -> resolved F parse_f64 env n r) /\
  (deeper_than F 20 n -> ~ node_missing F env n -> resolve_mapping F parse_f64 env n = Err (MaxDepth 21)) /\
  (node_missing F env n -> ~ deeper_than F 20 n -> resolve_mapping F parse_f64 env n = Err MissingVariable) /\
  (resolve_mapping F parse_f64 env n <> Panic).
Proof.
  intros n Hp. unfold resolve_mapping.
  destruct (resolve_node_spec F parse_f64 env n 0 (Nat.le_0_l _) Hp) as [(H1 & H2 & r & Hr & E)|(H1 & [(E & H2)|(E & H2)])]; change (max_resolve_depth - 0) with 20 in *.
  - split; [split; [intros _; split; assumption|intros _; now exists r]|]. split; [intros r' E'; rewrite E in E'; injection E' as <-; exact Hr|].
    split; [intros H; elim (H1 H)|]. split; [intros H; elim (H2 H)|congruence].
  - split; [split; [intros (r & E'); congruence|intros (H3 & H4); tauto]|]. split; [intros r' E'; congruence|].
    split; [intros _ _; exact E|]. split; [intros H H3; elim (H3 H2)|congruence].
  - split; [split; [intros (r & E'); congruence|intros (H3 & H4); tauto]|]. split; [intros r' E'; congruence|].
    split; [intros H H3; elim (H3 H2)|]. split; [intros _ _; exact E|congruence].
Qed.
(** What is read from a document meets the hypothesis, and reading never panics. *)
Theorem C55_documents : forall k, sane k -> forall json_text d,
  match yaml_node F k d with Ok n => proper F n | Err _ => True | Panic => False end /\
  match json_node F k json_text d with Ok n => proper F n | Err _ => True | Panic => False end.
Proof. intros k Hk jt d. split; [exact (yaml_good F parse_f64 env k Hk jt d)|exact (json_good F parse_f64 env k Hk jt d)]. Qed.

(** The same value means the same in JSON and in YAML when it has no text with "${" or text
    that is itself a JSON string, and no integer outside the 64-bit signed range. *)
Theorem C64_same_meaning_partial : forall k json_text d,
  (forall t, string_in F t d -> contains (chars "${") t = false /\ json_text t = None) ->
  (forall z, int_in F z d -> (- 2 ^ 63 <= z < 2 ^ 63)%Z) ->
  match yaml_node F k d, json_node F k json_text d with
  | Ok n, Ok n' => resolve_mapping F parse_f64 env n = resolve_mapping F parse_f64 env n'
  | Err e, Err e' => e = e'
  | _, _ => False
  end.
Proof.
  intros k jt d Ht Hz. pose proof (formats_agree F k jt d Ht Hz) as A. unfold agree in A.
  destruct (yaml_node F k d), (json_node F k jt d); auto. now apply same_resolve.
Qed.
(** A reference in JSON is never resolved: the text of the reference is the value. *)
Theorem C64_json_reference_refuted : forall k json_text n v, sane k ->
  json_text (chars "${variables." ++ n ++ chars "}") = None ->
  parse_substitutions k (chars "${variables." ++ n ++ chars "}") = Ok [Ref n] ->
  variable env n v -> forall s, typed F parse_f64 v s ->
  let d := DStr F (chars "${variables." ++ n ++ chars "}") in
  (exists y, yaml_node F k d = Ok y /\ resolve_mapping F parse_f64 env y = Ok (RScalar F s)) /\
  (exists j, json_node F k json_text d = Ok j /\
     resolve_mapping F parse_f64 env j = Ok (RScalar F (SStr F (chars "${variables." ++ n ++ chars "}")))).
Proof.
  intros k jt n v Hk Hj Hp Hv s Hs d. split.
  - exists (NSub F [Ref n]). split; [unfold d; cbn [yaml_node]; rewrite Hp; reflexivity|].
    unfold resolve_mapping. cbn [resolve_node]. change (Nat.ltb max_resolve_depth 0) with false. cbn iota.
    rewrite (scalar_ok F parse_f64 env [Ref n] s); [reflexivity|discriminate|]. econstructor; eassumption.
  - eexists. split; [unfold d; cbn [json_node]; unfold json_string_node; rewrite Hj; reflexivity|reflexivity].
Qed.
(** An unsigned JSON integer from 2^63 wraps to a negative one. *)
Theorem C64_json_integer_refuted : forall k json_text z, (2 ^ 63 <= z < 2 ^ 64)%Z ->
  json_node F k json_text (DInt F z) = Ok (NScalar F (SInt F (z - 2 ^ 64))) /\ (z - 2 ^ 64 < 0)%Z.
Proof.
  intros k jt z Hz. split; [|lia]. cbn -[json_int]. unfold json_int. rewrite (proj2 (Z.ltb_ge _ _)) by apply Hz. reflexivity.
Qed.

(** Integer and boolean settings take exactly the values of their type. *)
Theorem C66_integer_and_boolean : forall ps, ps <> [] -> forall z b,
  (node_to_int F parse_f64 env (NSub F ps) = Ok z <-> parts_scalar F parse_f64 env ps (SInt F z)) /\
  (node_to_bool F parse_f64 env (NSub F ps) = Ok b <-> parts_scalar F parse_f64 env ps (SBool F b)) /\
  node_to_int F parse_f64 env (NScalar F (SInt F z)) = Ok z /\
  node_to_bool F parse_f64 env (NScalar F (SBool F b)) = Ok b.
Proof.
  intros ps Hne z b. destruct (C54_typed ps Hne) as [T _]. unfold node_to_int, node_to_bool. cbn [node_to_scalar].
  split; [|split; [|split; reflexivity]].
  - rewrite <- T. destruct (resolve_scalar F parse_f64 env ps) as [[t|x|f|c]|e|]; cbn; split; intros H; congruence.
  - rewrite <- T. destruct (resolve_scalar F parse_f64 env ps) as [[t|x|f|c]|e|]; cbn; split; intros H; congruence.
Qed.
(** A setting of type float rejects every value written as a whole number, in the document or in
    a variable, although it is a number. *)
Theorem C66_whole_float_refuted : forall n v z, variable env n v -> int_text v z ->
  node_to_float F parse_f64 env (NSub F [Ref n]) = Err MustBeFloat /\
  node_to_float F parse_f64 env (NScalar F (SInt F z)) = Err MustBeFloat.
Proof.
  intros n v z Hv Hz. split; [|reflexivity]. unfold node_to_float. cbn [node_to_scalar].
  rewrite (scalar_ok F parse_f64 env [Ref n] (SInt F z)); [reflexivity|discriminate|]. econstructor; [exact Hv|now constructor].
Qed.
(** A text setting given by one reference accepts exactly the values that look like no number
    and no boolean. *)
Theorem C66_text_partial : forall n v, variable env n v ->
  (node_to_string F parse_f64 env (NSub F [Ref n]) = Ok v <-> typed F parse_f64 v (SStr F v)) /\
  (forall s, typed F parse_f64 v s -> s <> SStr F v -> node_to_string F parse_f64 env (NSub F [Ref n]) = Err MustBeScalar).
Proof.
  intros n v Hv. destruct (typed_of F parse_f64 env v) as (s & Ts & Rs). unfold node_to_string. cbn [node_to_scalar]. rewrite (Rs n Hv).
  split.
  - split.
    + destruct s; cbn; intros H; try discriminate. inversion H; subst. exact Ts.
    + intros T. rewrite (typed_unique F parse_f64 v s _ Ts T). reflexivity.
  - intros s' T' Hn. rewrite (typed_unique F parse_f64 v s s' Ts T'). destruct T'; cbn; try reflexivity. now elim Hn.
Qed.
Theorem C66_numeric_text_refuted : forall n v z, variable env n v -> int_text v z ->
  node_to_string F parse_f64 env (NSub F [Ref n]) = Err MustBeScalar.
Proof.
  intros n v z Hv Hz. apply (C66_text_partial n v Hv) with (s := SInt F z); [now constructor|discriminate].
Qed.
End Params.

(** Concrete instances: floats are texts, only "1.5" is one. *)
Definition sample_env (t : text) : option text :=
  if text_eqb t (chars "CELERITY_VARIABLE_port") then Some (chars "8080")
  else if text_eqb t (chars "CELERITY_VARIABLE_env") then Some (chars "prod")
  else if text_eqb t (chars "CELERITY_VARIABLE_rate") then Some (chars "1.5")
  else if text_eqb t (chars "CELERITY_VARIABLE_on") then Some (chars "true") else None.
Definition sample_f64 (t : text) : option text := if text_eqb t (chars "1.5") then Some t else None.
Example C54_nonvacuous :
  resolve_to_string sample_env [Lit (chars "a-"); Ref (chars "env"); Lit (chars "-"); Ref (chars "port")] = Ok (chars "a-prod-8080") /\
  resolve_to_string sample_env [Lit (chars "a-"); Ref (chars "gone")] = Err MissingVariable /\
  resolve_scalar text sample_f64 sample_env [Ref (chars "port")] = Ok (SInt text 8080) /\
  resolve_scalar text sample_f64 sample_env [Ref (chars "rate")] = Ok (SFloat text (chars "1.5")) /\
  resolve_scalar text sample_f64 sample_env [Ref (chars "on")] = Ok (SBool text true) /\
  resolve_scalar text sample_f64 sample_env [Ref (chars "env")] = Ok (SStr text (chars "prod")) /\
  int_text (chars "8080") 8080.
Proof.
  repeat match goal with |- _ /\ _ => split end; try (vm_compute; reflexivity). apply parse_i64_iff. vm_compute. reflexivity.
Qed.
Fixpoint nested (n : nat) (x : node text) : node text := match n with O => x | S n' => NSeq text [nested n' x] end.
Example C55_nonvacuous :
  (exists r, resolve_mapping text sample_f64 sample_env (nested 20 (NSub text [Ref (chars "env")])) = Ok r) /\
  resolve_mapping text sample_f64 sample_env (nested 21 (NSub text [Ref (chars "env")])) = Err (MaxDepth 21) /\
  resolve_mapping text sample_f64 sample_env (nested 3 (NSub text [Ref (chars "gone")])) = Err MissingVariable /\
  proper text (nested 2 (NSub text [Ref (chars "env")])).
Proof.
  split; [eexists; vm_compute; reflexivity|]. split; [vm_compute; reflexivity|]. split; [vm_compute; reflexivity|].
  intros d H. cbn in H. repeat (inversion H as [|? ? ? ? Hin Ho|? ? ? ? ? Hin Ho]; subst; clear H; destruct Hin as [<-|[]]; rename Ho into H).
Qed.
Example C64_nonvacuous :
  let d := DMap text [(chars "a", DSeq text [DStr text (chars "x"); DInt text 5; DBool text true])] in
  yaml_node text ascii_classes d <> json_node text ascii_classes (fun _ => None) d /\
  (forall t, string_in text t d -> contains (chars "${") t = false) /\
  parse_substitutions ascii_classes (chars "${variables." ++ chars "port" ++ chars "}") = Ok [Ref (chars "port")].
Proof.
  split; [vm_compute; discriminate|]. split; [|vm_compute; reflexivity].
  intros t H. inversion H as [| |t' y key m Hin Hy]; subst. destruct Hin as [E|[]]. inversion E; subst. inversion Hy as [|t' y' l Hin2 Hy2|]; subst.
  destruct Hin2 as [<-|[<-|[<-|[]]]]; inversion Hy2; subst. reflexivity.
Qed.
Example C66_nonvacuous :
  node_to_int text sample_f64 sample_env (NSub text [Ref (chars "port")]) = Ok 8080%Z /\
  node_to_string text sample_f64 sample_env (NSub text [Ref (chars "port")]) = Err MustBeScalar /\
  node_to_string text sample_f64 sample_env (NSub text [Ref (chars "env")]) = Ok (chars "prod") /\
  node_to_float text sample_f64 sample_env (NSub text [Ref (chars "port")]) = Err MustBeFloat.
Proof. repeat split; vm_compute; reflexivity. Qed.

Print Assumptions C54_string.
Print Assumptions C54_typed.
Print Assumptions C54_one_type.
Print Assumptions C55_mapping.
Print Assumptions C55_documents.
Print Assumptions C64_same_meaning_partial.
Print Assumptions C64_json_reference_refuted.
Print Assumptions C64_json_integer_refuted.
Print Assumptions C66_integer_and_boolean.
Print Assumptions C66_whole_float_refuted.
Print Assumptions C66_text_partial.
Print Assumptions C66_numeric_text_refuted.
