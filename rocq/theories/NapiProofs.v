(** Lemmas about loading the native library. *)
From Verif Require Import Base NapiModel NapiSpec.
Open Scope string_scope.

Section S.
Variables (L E : Type) (includes : string -> string -> bool).
Implicit Type m : machine L E.

Lemma load_source m t : load m t = require m (source m t).
Proof. unfold load, source. now destruct (exists_file m _). Qed.
Lemma musl_iff m c : c_library includes m c <-> c = if is_musl includes m then Musl else Gnu.
Proof. unfold c_library, is_musl. destruct (report m), (glibc m), (ldd m); tauto. Qed.

(** What the script does, by target *)
Definition tried m (t : string) : outcome L E := match require m (source m t) with inl l => Loaded l | inr e => Thrown e end.
Lemma native_mac m : platform m = "darwin" -> forall l, require m (source m "darwin-universal") = inl l -> native includes m = Loaded l.
Proof. intros P l R. unfold native. rewrite P. cbn [String.eqb Ascii.eqb Bool.eqb]. now rewrite load_source, R. Qed.
Lemma native_target m c t : c_library includes m c -> target_of (platform m) (arch m) c t ->
  (platform m = "darwin" -> exists e, require m (source m "darwin-universal") = inr e) -> native includes m = tried m t.
Proof.
  intros C T U. apply musl_iff in C. unfold native, block, tried.
  destruct (platform m) as [|x p] eqn:P.
  - inversion T.
  - inversion T as [d Ep Ea Ec Et|d Ep Ea Ec Et|d Ep Ea Ec Et|d Ep Ea Ec Et|d Ep Ea Ec Et|d Ep Ea Ec Et|d Ep Ea Ec Et|d Ep Ea Ec Et
                 |Ep Ea Ec Et|Ep Ea Ec Et|Ep Ea Ec Et|Ep Ea Ec Et|Ep Ea Ec Et|Ep Ea Ec Et|Ep Ea Ec Et|Ep Ea Ec Et|d Ep Ea Ec Et];
    cbn [String.eqb Ascii.eqb Bool.eqb];
    try (destruct (is_musl includes m); [|congruence]); try (destruct (is_musl includes m); [congruence|]);
    try (destruct U as (e & U); [congruence|]; rewrite load_source, U); rewrite load_source; try reflexivity.
Qed.
Definition targets : list (string * string) :=
  [("android","arm64"); ("android","arm"); ("win32","x64"); ("win32","ia32"); ("win32","arm64"); ("darwin","x64"); ("darwin","arm64");
   ("freebsd","x64"); ("linux","x64"); ("linux","arm64"); ("linux","arm"); ("linux","riscv64"); ("linux","s390x")].
Lemma targets_all p a : In (p, a) targets -> forall c, exists t, target_of p a c t.
Proof.
  intros H c. unfold targets in H. cbn [In] in H.
  repeat (destruct H as [H|H]; [injection H as <- <-; destruct c; eexists; constructor|]). destruct H.
Qed.
Lemma target_in p a c t : target_of p a c t -> In (p, a) targets.
Proof. intros T. destruct T; unfold targets; cbn [In]; tauto. Qed.
Lemma target_fun p a c t t' : target_of p a c t -> target_of p a c t' -> t = t'.
Proof. intros T T'. destruct T; inversion T'; reflexivity. Qed.
Definition message p a : string :=
  if String.eqb p "android" then "Unsupported architecture on Android " ++ a
  else if String.eqb p "win32" then "Unsupported architecture on Windows: " ++ a
  else if String.eqb p "darwin" then "Unsupported architecture on macOS: " ++ a
  else if String.eqb p "freebsd" then "Unsupported architecture on FreeBSD: " ++ a
  else if String.eqb p "linux" then "Unsupported architecture on Linux: " ++ a
  else "Unsupported OS: " ++ p ++ ", architecture: " ++ a.
Lemma native_other m : ~ In (platform m, arch m) targets ->
  (platform m = "darwin" -> exists e, require m (source m "darwin-universal") = inr e) ->
  native includes m = Unsupported (message (platform m) (arch m)).
Proof.
  intros N U. unfold native, message, targets in *. cbn [In] in N.
  repeat (match goal with |- context [String.eqb (platform ?m) ?s] => destruct (String.eqb_spec (platform m) s) as [Q|_] end;
    [rewrite Q in *;
     repeat (match goal with |- context [String.eqb (arch ?m) ?s] => destruct (String.eqb_spec (arch m) s) as [Q'|_] end;
       [exfalso; apply N; rewrite Q'; tauto|]); try reflexivity|]); try reflexivity.
  all: destruct (U eq_refl) as (e & Ue); rewrite load_source, Ue;
     repeat (match goal with |- context [String.eqb (arch ?m) ?s] => destruct (String.eqb_spec (arch m) s) as [Q'|_] end;
       [exfalso; apply N; rewrite Q'; tauto|]); try reflexivity.
Qed.
Lemma in_targets_dec x : {In x targets} + {~ In x targets}.
Proof. apply in_dec. decide equality; apply string_dec. Qed.
(** The three cases *)
Lemma native_cases m :
  (exists l, platform m = "darwin" /\ require m (source m "darwin-universal") = inl l /\ native includes m = Loaded l) \/
  ((platform m = "darwin" -> exists e, require m (source m "darwin-universal") = inr e) /\
   ((exists c t, c_library includes m c /\ target_of (platform m) (arch m) c t /\ native includes m = tried m t) \/
    (~ In (platform m, arch m) targets /\ native includes m = Unsupported (message (platform m) (arch m))))).
Proof.
  destruct (string_dec (platform m) "darwin") as [D|D].
  - destruct (require m (source m "darwin-universal")) as [l|e] eqn:R.
    + left. exists l. split; [exact D|]. split; [reflexivity|]. now apply native_mac.
    + right. assert (U : platform m = "darwin" -> exists e, require m (source m "darwin-universal") = inr e) by (intros; eauto).
      split; [eauto|]. destruct (in_targets_dec (platform m, arch m)) as [I|I]; [left|right; split; [exact I|now apply native_other]].
      destruct (targets_all _ _ I (if is_musl includes m then Musl else Gnu)) as (t & T).
      exists (if is_musl includes m then Musl else Gnu), t.
      split; [now apply musl_iff|]. split; [exact T|]. eapply native_target; eauto. now apply musl_iff.
  - right. assert (U : platform m = "darwin" -> exists e, require m (source m "darwin-universal") = inr e) by (intros; contradiction).
      split; [exact U|]. destruct (in_targets_dec (platform m, arch m)) as [I|I]; [left|right; split; [exact I|now apply native_other]].
      destruct (targets_all _ _ I (if is_musl includes m then Musl else Gnu)) as (t & T).
      exists (if is_musl includes m then Musl else Gnu), t.
      split; [now apply musl_iff|]. split; [exact T|]. eapply native_target; eauto. now apply musl_iff.
Qed.
End S.
