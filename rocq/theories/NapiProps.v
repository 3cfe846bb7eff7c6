(** Theorems about loading the native library of the Node.js SDK (C146).  Model: NapiModel.v.
    Vocabulary: NapiSpec.v. *)
From Verif Require Import Base NapiModel NapiSpec NapiProofs.
Open Scope string_scope.

(** Whatever the machine, a library that is loaded is one built for it. *)
Theorem C146_right : forall L E includes (m : machine L E) l, native includes m = Loaded l ->
  exists t, fits includes m t /\ require m (source m t) = inl l.
Proof.
  intros L E inc m l H. destruct (native_cases _ _ inc m) as [(l' & D & R & Q)|(_ & [(c & t & C & T & Q)|(_ & Q)])]; rewrite Q in H.
  - injection H as <-. exists "darwin-universal". split; [now right|exact R].
  - unfold tried in H. destruct (require m (source m t)) as [l'|e] eqn:R; [|discriminate]. injection H as <-.
    exists t. split; [left; eauto|exact R].
  - discriminate.
Qed.
(** The target of the machine is loaded when it can be, except that macOS takes the universal library first. *)
Theorem C146_loads : forall L E includes (m : machine L E) c t, c_library includes m c -> target_of (platform m) (arch m) c t ->
  native includes m =
    match (if String.eqb (platform m) "darwin" then require m (source m "darwin-universal") else require m (source m t)) with
    | inl l => Loaded l
    | inr _ => match require m (source m t) with inl l => Loaded l | inr e => Thrown e end
    end.
Proof.
  intros L E inc m c t C T. destruct (String.eqb_spec (platform m) "darwin") as [D|D].
  - destruct (require m (source m "darwin-universal")) as [l|e] eqn:R; [now apply native_mac|].
    rewrite (native_target _ _ inc m c t C T) by (intros; eauto). reflexivity.
  - rewrite (native_target _ _ inc m c t C T) by (intros; contradiction). unfold tried. now destruct (require m (source m t)).
Qed.
(** A machine for which there is no target is told so, and told its architecture. *)
Theorem C146_unsupported : forall L E includes (m : machine L E),
  (forall c t, ~ target_of (platform m) (arch m) c t) ->
  (platform m = "darwin" /\ exists l, native includes m = Loaded l /\ require m (source m "darwin-universal") = inl l) \/
  (exists before, native includes m = Unsupported (before ++ arch m)).
Proof.
  intros L E inc m N. destruct (native_cases _ _ inc m) as [(l' & D & R & Q)|(_ & [(c & t & C & T & Q)|(_ & Q)])].
  - left. split; [exact D|]. exists l'. now split.
  - now destruct (N c t).
  - right. rewrite Q. unfold message.
    repeat (match goal with |- context [if String.eqb ?x ?s then _ else _] => destruct (String.eqb x s) end; [eexists; reflexivity|]).
    exists ("Unsupported OS: " ++ platform m ++ ", architecture: ").
    assert (A : forall x y z : string, (x ++ y) ++ z = x ++ (y ++ z)) by (induction x; cbn; intros; congruence).
    now rewrite !A.
Qed.
(** ... and no other machine is. *)
Theorem C146_supported : forall L E includes (m : machine L E) c t msg, target_of (platform m) (arch m) c t -> native includes m <> Unsupported msg.
Proof.
  intros L E inc m c t msg T H. destruct (native_cases _ _ inc m) as [(l' & D & R & Q)|(_ & [(c' & t' & C & T' & Q)|(N & Q)])]; rewrite Q in H.
  - discriminate.
  - unfold tried in H. now destruct (require m (source m t')).
  - now apply N, (target_in _ _ c t).
Qed.
(** A package npm installs on a machine is the one its script asks for. *)
Theorem C146_installed_asked : forall L E includes (m : machine L E) p, In p published -> installed_on includes p m ->
  exists c, c_library includes m c /\ target_of (platform m) (arch m) c (p_target p).
Proof.
  intros L E inc m p I (O & A & C). rewrite <- O, <- A. unfold published in I. cbn [In] in I.
  assert (C0 : exists c, c_library inc m c) by (exists (if is_musl inc m then Musl else Gnu); now apply musl_iff).
  assert (G : forall c, match p_libc p with None => True | Some l => l = libc_name c end -> target_of (p_os p) (p_cpu p) c (p_target p)).
  { intros c Ec. clear - I Ec. repeat (destruct I as [I|I]; [subst p; cbn in Ec; destruct c; try discriminate Ec; constructor|]). destruct I. }
  destruct (p_libc p) as [l|] eqn:Lc.
  - destruct C as (c & C & Ec). exists c. split; [exact C|]. now apply G.
  - destruct C0 as (c & C0). exists c. split; [exact C0|]. now apply G.
Qed.
(** So with the package installed and no file beside the script, that package is what is loaded
    (on macOS the universal library, of which no package is published, comes first). *)
Theorem C146_installed_loaded : forall L E includes (m : machine L E) p l, In p published -> installed_on includes p m ->
  exists_file m ("runtime." ++ p_target p ++ ".node") = false ->
  require m ("@celerity-sdk/runtime-" ++ p_target p) = inl l ->
  (platform m = "darwin" -> exists e, require m (source m "darwin-universal") = inr e) ->
  native includes m = Loaded l.
Proof.
  intros L E inc m p l I O F R U. destruct (C146_installed_asked _ _ inc m p I O) as (c & C & T).
  rewrite (native_target _ _ inc m c _ C T U). unfold tried, source. now rewrite F, R.
Qed.

(** Not every machine the script has a target for has a package: on Linux on a 32-bit ARM the
    script asks for a package that is not published. *)
Theorem C146_published_refuted : exists c t, target_of "linux" "arm" c t /\ forall p, In p published -> p_target p <> t.
Proof.
  exists Gnu, "linux-arm-gnueabihf". split; [constructor|]. intros p I. unfold published in I. cbn [In] in I.
  repeat (destruct I as [I|I]; [subst p; discriminate|]). destruct I.
Qed.
(** And an installed package that loads does not help when a file beside the script does not load. *)
Theorem C146_fallback_refuted : exists (m : machine string string) c t l,
  c_library (fun _ _ => false) m c /\ target_of (platform m) (arch m) c t /\
  require m ("@celerity-sdk/runtime-" ++ t) = inl l /\ forall l', native (fun _ _ => false) m <> Loaded l'.
Proof.
  exists (Build_machine "linux" "x64" (Some "2.36") true None (String.eqb "runtime.linux-x64-gnu.node")
    (fun f => if String.eqb f "@celerity-sdk/runtime-linux-x64-gnu" then inl "library" else inr "invalid ELF header")), Gnu, "linux-x64-gnu", "library".
  split; [reflexivity|]. split; [constructor|]. split; [reflexivity|]. intros l'. vm_compute. discriminate.
Qed.

Definition C146_mac : machine string string := Build_machine "darwin" "arm64" None true None (fun _ => false)
  (fun f => if String.eqb f "@celerity-sdk/runtime-darwin-arm64" then inl "arm64 library" else inr "not found").
Example C146_nonvacuous :
  native (fun _ _ => false) C146_mac = Loaded "arm64 library" /\
  installed_on (fun _ _ => false) (Build_package "darwin-arm64" "darwin" "arm64" None) C146_mac /\
  (exists e, require C146_mac (source C146_mac "darwin-universal") = inr e) /\
  native (fun _ _ => false) (Build_machine (Lib := string) (Err := string) "linux" "mips" None true None (fun _ => false) (fun _ => inr "x"))
    = Unsupported "Unsupported architecture on Linux: mips".
Proof. split; [reflexivity|]. split; [now repeat split|]. split; [now exists "not found"|reflexivity]. Qed.

Print Assumptions C146_right.
Print Assumptions C146_loads.
Print Assumptions C146_unsupported.
Print Assumptions C146_supported.
Print Assumptions C146_installed_asked.
Print Assumptions C146_installed_loaded.
Print Assumptions C146_published_refuted.
Print Assumptions C146_fallback_refuted.
