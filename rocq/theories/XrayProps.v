(** Theorems on X-Ray trace ids: C98 *)
From Verif Require Import Base Chars XrayModel XraySpec XrayProofs.
Local Open Scope list_scope.
Local Open Scope N_scope.

(** C98: the text is the version 1, the 32 highest bits in 8 digits and the other 96 bits in 24. *)
Theorem C98_format id : id < 2 ^ 128 -> exists a b, xray_of id = chars "1-" ++ a ++ chars "-" ++ b /\ length a = 8%nat /\ length b = 24%nat /\ hex_means a (id / 2 ^ 96) /\ hex_means b (id mod 2 ^ 96).
Proof.
  intros L. exists (hex 8 (id / 2 ^ 96)), (hex 24 (id mod 2 ^ 96)). split; [|split; [apply hex_length|split; [apply hex_length|split; apply hex_ok]]].
  - unfold xray_of. rewrite hex_first, hex_last by lia. change (16 ^ N.of_nat (32 - 8)) with (2 ^ 96). change (32 - 8)%nat with 24%nat. rewrite <- (hex_mod 24 id). change (16 ^ N.of_nat 24) with (2 ^ 96). reflexivity.
  - change (16 ^ N.of_nat 8) with (2 ^ 32). apply N.div_lt_upper_bound; [discriminate|]. exact L.
  - change (16 ^ N.of_nat 24) with (2 ^ 96). apply N.mod_lt. discriminate.
Qed.
(** C98: the text of a valid id gives it back, and the invalid id, zero, is refused. *)
Theorem C98_round_trip id : id < 2 ^ 128 -> trace_of (xray_of id) = if id =? 0 then None else Some id.
Proof.
  intros L. assert (H : hex_means (hex 32 id) id) by (apply hex_ok; exact L).
  assert (D : forall c, In c (hex 32 id) -> c <> 45). { intros c I. pose proof (hex_means_char _ _ c H I). lia. }
  assert (S : split (xray_of id) = [chars "1"; firstn 8 (hex 32 id); skipn 8 (hex 32 id)]).
  { unfold xray_of. change (chars "-") with [45]. cbn [app]. rewrite (split_app (chars "1")) by (intros c [<-|[]]; discriminate). f_equal.
    assert (D1 : forall c, In c (firstn 8 (hex 32 id)) -> c <> 45). { intros c I. apply D. rewrite <- (firstn_skipn 8). apply in_or_app. auto. }
    assert (D2 : forall c, In c (skipn 8 (hex 32 id)) -> c <> 45). { intros c I. apply D. rewrite <- (firstn_skipn 8). apply in_or_app. auto. }
    rewrite (split_app (firstn 8 (hex 32 id)) _ D1), (split_none _ D2). reflexivity. }
  unfold trace_of, split_terminator. rewrite S. cbn [rev app]. assert (N : skipn 8 (hex 32 id) <> []). { intros E. apply (f_equal (@length N)) in E. rewrite skipn_length, hex_length in E. discriminate. }
  destruct (skipn 8 (hex 32 id)) as [|c t] eqn:E; [congruence|]. rewrite <- E, firstn_skipn. rewrite (from_hex_ok _ _ H); [reflexivity| |exact L]. intros X. apply (f_equal (@length _)) in X. rewrite hex_length in X. discriminate.
Qed.
(** C98: different ids have different texts. *)
Theorem C98_distinct id id' : id < 2 ^ 128 -> id' < 2 ^ 128 -> xray_of id = xray_of id' -> id = id'.
Proof.
  intros L L' E. pose proof (C98_round_trip id L) as A. pose proof (C98_round_trip id' L') as B. rewrite E, B in A. destruct (N.eqb_spec id 0), (N.eqb_spec id' 0); congruence.
Qed.
(** C98: a text is read as an id exactly when it is of this form and the number is neither zero nor too large. *)
Theorem C98_accepts t n : trace_of t = Some n <-> 0 < n < 2 ^ 128 /\ trace_text t n.
Proof. exact (trace_exact t n). Qed.
Example C98_accepts_nonvacuous : trace_text (chars "x-+AbC-12-") 0xabc12 /\ trace_of (chars "1-5-") = None.
Proof. split; [apply (C98_accepts (chars "x-+AbC-12-")); reflexivity|reflexivity]. Qed.
Example C98_nonvacuous : xray_of (0x58406520 * 2 ^ 96 + 0xa006649127e371903a2de979) = chars "1-58406520-a006649127e371903a2de979" /\ trace_of (chars "1-58406520-a006649127e371903a2de979") = Some (0x58406520 * 2 ^ 96 + 0xa006649127e371903a2de979) /\ trace_of (xray_of 0) = None.
Proof. vm_compute. auto. Qed.
Print Assumptions C98_format.
Print Assumptions C98_round_trip.
Print Assumptions C98_distinct.
Print Assumptions C98_accepts.
