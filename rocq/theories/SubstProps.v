(** C51, C52, C53, C63: parsing of ${..} substitutions. *)
From Verif Require Import Base Chars ScannerModel SubstModel SubstSpec SubstScan SubstProofs SubstSafe.
Local Open Scope list_scope.

(** Strings made of literal text and variable references, in either accessor form, are read
    as exactly those pieces, in order. *)
Theorem C51_read_as_written : forall k, sane k -> forall ps, well_written k ps ->
  parse_substitutions k (written_all ps) = Ok (map meant ps).
Proof. intros k Hk ps H. now apply parses_as_written. Qed.
Theorem C51_plain_text : forall k t, contains (chars "${") t = false -> parse_substitutions k t = Ok [Lit t].
Proof. intros k t H. unfold parse_substitutions. change open_sub with (chars "${"). now rewrite H. Qed.

Example C51_nonvacuous : exists ps, well_written ascii_classes ps /\
  written_all ps = chars "https://${variables.host-name}$${variables[""port.main""]}${variables._p}/x{}" /\
  parse_substitutions ascii_classes (written_all ps) =
    Ok [Lit (chars "https://"); Ref (chars "host-name"); Lit (chars "$"); Ref (chars "port.main"); Ref (chars "_p"); Lit (chars "/x{}")].
Proof.
  exists [PText (chars "https://"); PDot (chars "host-name"); PText (chars "$"); PBracket (chars "port.main"); PDot (chars "_p"); PText (chars "/x{}")].
  split; [|split; vm_compute; reflexivity]. split; [discriminate|]. split; [|exact I].
  assert (D : forall n, match n with [] => false | c :: t => ident_start ascii_classes c && forallb (ident_char ascii_classes) t end = true -> dot_name ascii_classes n).
  { intros n H. apply dot_name_iff. destruct n as [|c t]; [discriminate|]. apply andb_prop in H. exists c, t. tauto. }
  assert (Q : quoted_name ascii_classes (chars "port.main")) by (apply quoted_name_iff; reflexivity).
  repeat (apply Forall_cons || apply Forall_nil); try (split; [discriminate|reflexivity]); try (apply D; reflexivity). exact Q.
Qed.

(** One substitution of another kind, after any well-written text and with no further brace
    after it, is kept verbatim and leaves what comes before untouched.  Missing for the full
    claim: see the refutations below. *)
Theorem C52_last_other_kind_kept_partial : forall k, sane k -> forall ps cs t,
  Forall (piece_ok k) ps -> separated ps -> other_kind cs ->
  (forall d, In d t -> ~ In d (chars "}")) -> contains (chars "${") t = false ->
  parse_substitutions k (written_all ps ++ chars "${" ++ inside cs ++ chars "}" ++ t)
  = Ok (meant_then ps (chars "${" ++ inside cs ++ chars "}" ++ t)).
Proof.
  intros k Hk ps cs t H1 H2 H3 H4 H5. apply other_kind_kept; auto. intros d Hd ->. apply (H4 _ Hd). now left.
Qed.
Example C52_nonvacuous :
  other_kind [Plain (chars "concat(values.a, "); Quoted (chars "} ${"); Plain (chars ")")] /\
  parse_substitutions ascii_classes (chars "a ${variables.v} b ${concat(values.a, ""} ${"")} c") =
    Ok [Lit (chars "a "); Ref (chars "v"); Lit (chars " b ${concat(values.a, ""} ${"")} c")].
Proof.
  split; [|vm_compute; reflexivity]. split; [|reflexivity].
  assert (P : forall bad t, forallb (fun d => negb (existsb (N.eqb d) bad)) t = true -> forall d, In d t -> ~ In d bad).
  { intros bad t H d Hd Hb. rewrite forallb_forall in H. specialize (H d Hd). apply negb_true_iff in H.
    rewrite (proj2 (existsb_exists _ bad)) in H; [discriminate|]. exists d. split; [exact Hb|apply N.eqb_refl]. }
  repeat (apply Forall_cons || apply Forall_nil); cbn [chunk_ok]; intros d Hd; revert d Hd; apply P; reflexivity.
Qed.

(** What an author may expect of any mixture: the string means its pieces in order, with the
    other substitutions as text. *)
Inductive item := IPiece (p : piece) | IOther (cs : list chunk).
Definition item_text (i : item) : text :=
  match i with IPiece p => written p | IOther cs => chars "${" ++ inside cs ++ chars "}" end.
Definition item_ok k (i : item) : Prop :=
  match i with IPiece p => piece_ok k p | IOther cs => other_kind cs end.
Definition item_part (i : item) : part :=
  match i with IPiece p => meant p | IOther cs => Lit (chars "${" ++ inside cs ++ chars "}") end.
(** References in a list of parts, and its text with each reference shown as [?] *)
Definition refs (ps : list part) : list text := concat (map (fun p => match p with Ref n => [n] | Lit _ => [] end) ps).
Definition shown (ps : list part) : text := concat (map (fun p => match p with Ref _ => chars "?" | Lit t => t end) ps).

(** A substitution of another kind makes later variable references unrecognised. *)
Theorem C52_later_references_refuted : ~ forall items ps, Forall (item_ok ascii_classes) items ->
  parse_substitutions ascii_classes (concat (map item_text items)) = Ok ps -> refs ps = refs (map item_part items).
Proof.
  intros H. specialize (H [IOther [Plain (chars "values.a")]; IPiece (PDot (chars "x"))] [Lit (chars "${values.a}${variables.x}")]).
  assert (K : refs [Lit (chars "${values.a}${variables.x}")] = [chars "x"]).
  { apply H.
    - apply Forall_cons; [|apply Forall_cons; [|apply Forall_nil]].
      + split; [|reflexivity]. apply Forall_cons; [|apply Forall_nil]. intros d Hd.
        repeat (destruct Hd as [<-|Hd]; [intros X; repeat (destruct X as [X|X]; [discriminate|]); destruct X|]). destruct Hd.
      + cbn. apply dot_name_iff. exists 120%N, []. repeat split.
    - vm_compute. reflexivity. }
  discriminate K.
Qed.
(** Text is lost when two such substitutions follow each other, and duplicated when a
    substitution is not closed. *)
Theorem C52_text_lost_refuted : ~ forall items ps, Forall (item_ok ascii_classes) items ->
  parse_substitutions ascii_classes (concat (map item_text items)) = Ok ps -> shown ps = shown (map item_part items).
Proof.
  intros H. specialize (H [IPiece (PText (chars "a")); IOther [Plain (chars "x")]; IOther [Plain (chars "y")]] [Lit (chars "${y}")]).
  assert (O : forall c, ~ In c (chars """{}\") -> starts_with (chars "variables") [c] = false -> other_kind [Plain [c]]).
  { intros c Hc Hs. split; [|exact Hs]. apply Forall_cons; [|apply Forall_nil]. intros d [<-|[]]. exact Hc. }
  assert (K : shown [Lit (chars "${y}")] = chars "a${x}${y}").
  { apply H.
    - apply Forall_cons; [split; [discriminate|reflexivity]|]. apply Forall_cons; [|apply Forall_cons; [|apply Forall_nil]];
        (apply O; [intros X; repeat (destruct X as [X|X]; [discriminate|]); destruct X|reflexivity]).
    - vm_compute. reflexivity. }
  discriminate K.
Qed.
Theorem C52_unclosed_refuted :
  parse_substitutions ascii_classes (chars "abc ${variables.x") = Ok [Lit (chars "abc abc ${variables.x")] /\
  parse_substitutions ascii_classes (chars "pre ${values.a} {x}") = Ok [Lit (chars " {x}")].
Proof. split; vm_compute; reflexivity. Qed.

(** Every string is parsed or rejected; the list of parts is never empty. *)
Theorem C53_never_panics : forall k, sane k -> forall t,
  match parse_substitutions k t with Ok ps => ps <> [] | Err _ => True | Panic => False end.
Proof. intros k Hk t. pose proof (parse_safe k Hk t) as P. destruct (parse_substitutions k t); tauto. Qed.
Example C53_nonvacuous :
  parse_substitutions ascii_classes (chars "$${variables.}") = Err (PChar 10) /\
  (exists ps, parse_substitutions ascii_classes [233; 36; 123; 123; 125; 36; 36; 123]%N = Ok ps) /\
  parse_substitutions ascii_classes [] = Ok [Lit []].
Proof. split; [vm_compute; reflexivity|]. split; [eexists; vm_compute; reflexivity|reflexivity]. Qed.

(** Every reference reported is written in the text, in one of the two documented forms. *)
Theorem C63_references_are_written : forall k, sane k -> forall t ps n,
  parse_substitutions k t = Ok ps -> In (Ref n) ps ->
  exists before after,
    (dot_name k n /\ t = before ++ chars "${variables." ++ n ++ after) \/
    (quoted_name k n /\ t = before ++ chars "${variables[""" ++ n ++ chars """]" ++ after).
Proof. intros k Hk t ps n E Hn. pose proof (parse_safe k Hk t) as P. rewrite E in P. exact (proj2 P n Hn). Qed.
(** But what follows the name inside the braces is ignored: a reference to a nested value, or
    with any garbage, is read as a reference to the variable; and a bracketed name may be empty. *)
Theorem C63_rest_ignored_refuted : forall k, sane k -> forall n, dot_name k n ->
  parse_substitutions k (chars "${variables." ++ n ++ chars ".b + 1}") = Ok [Ref n] /\
  parse_substitutions k (chars "${variables[""""]}") = Ok [Ref []].
Proof.
  intros k Hk n Hn. split.
  - unfold parse_substitutions. change (contains open_sub (chars "${variables." ++ n ++ chars ".b + 1}")) with true. cbn [negb].
    change (chars "${variables." ++ n ++ chars ".b + 1}") with (open_sub ++ (kw_variables ++ [c_dot]) ++ n ++ chars ".b + 1" ++ [c_close]).
    change init_st with (mk [] false false [] [] 32%N). rewrite steps_app, open_steps. cbn [obind addlit].
    replace ((kw_variables ++ [c_dot]) ++ n ++ chars ".b + 1" ++ [c_close]) with ((kw_variables ++ [c_dot] ++ n ++ chars ".b + 1") ++ [c_close]) by (rewrite <- !app_assoc; reflexivity).
    rewrite steps_app, body_steps.
    + cbn [obind]. rewrite steps_one, (close_step k _ _ _ _ n); [reflexivity|reflexivity|].
      apply (parse_dot k Hk n (chars ".b + 1") Hn). cbn. unfold ident_char. rewrite (proj1 (proj2 Hk)) by reflexivity. reflexivity.
    + intros d Hd. apply in_app_or in Hd. destruct Hd as [Hd|[<-|Hd]].
      * apply kw_chars in Hd. tauto.
      * split; [reflexivity|right; split; reflexivity].
      * cbn [app] in Hd. apply in_app_or in Hd. destruct Hd as [Hd|Hd].
        -- apply (dot_chars k Hk n d Hn) in Hd. tauto.
        -- repeat (destruct Hd as [<-|Hd]; [split; [reflexivity|right; split; reflexivity]|]). destruct Hd.
  - apply (C51_read_as_written k Hk [PBracket []]). split; [discriminate|]. split; [|exact I]. apply Forall_cons; [|apply Forall_nil]. intros d [].
Qed.
Example C63_nonvacuous : exists ps,
  parse_substitutions ascii_classes (chars "x ${variables.v${variables.w}") = Ok ps /\ In (Ref (chars "v")) ps.
Proof. eexists. split; [vm_compute; reflexivity|]. vm_compute. tauto. Qed.

Print Assumptions C51_read_as_written.
Print Assumptions C51_plain_text.
Print Assumptions C52_last_other_kind_kept_partial.
Print Assumptions C52_later_references_refuted.
Print Assumptions C52_text_lost_refuted.
Print Assumptions C52_unclosed_refuted.
Print Assumptions C53_never_panics.
Print Assumptions C63_references_are_written.
Print Assumptions C63_rest_ignored_refuted.
