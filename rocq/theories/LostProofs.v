(** Lemmas about the event of a lost message. *)
From Verif Require Import Base Chars Bytes WsModel WsProofs LostModel LostSpec.
Local Open Scope N_scope.
Local Open Scope list_scope.

Lemma hex_fun a n m : hex_digit a n -> hex_digit a m -> n = m.
Proof. intros [c k L ->|c k L ->|c k L ->] K; inversion K as [c' k' L' E Ec Ek|c' k' L' E Ec Ek|c' k' L' E Ec Ek]; subst k' c'; lia. Qed.
Lemma hex_lower_digit n : n < 16 -> hex_digit (hex_lower n) n.
Proof. intros H. unfold hex_lower. destruct (N.ltb_spec n 10); [now constructor|constructor 2; [lia|reflexivity]]. Qed.
Lemma escape_text c : char_text (escape c) c.
Proof.
  unfold escape.
  repeat match goal with |- context [N.eqb ?x ?y] => destruct (N.eqb_spec x y) as [->|?]; [constructor 2; cbn; tauto|] end.
  destruct (N.ltb_spec c 32) as [L|L].
  - pose proof (N.div_mod c 16 ltac:(lia)) as D. constructor 3; [|left; lia].
    apply (Unit _ _ _ _ 0 0 (c / 16) (c mod 16)); [now apply (HexDecimal _ 0)|now apply (HexDecimal _ 0)| | |lia]; apply hex_lower_digit.
    + apply N.div_lt_upper_bound; lia.
    + apply N.mod_lt. lia.
  - now constructor.
Qed.
Lemma escaped_text t : string_text (flat_map escape t) t.
Proof. induction t as [|c t IH]; cbn; constructor; [apply escape_text|exact IH]. Qed.

(** No text can be read in two ways. *)
Lemma unit_prefix s t n m a b : unit_text s n -> unit_text t m -> s ++ a = t ++ b -> s = t /\ n = m /\ a = b.
Proof.
  intros H K. destruct H as [a1 b1 c1 d1 w x y z n H1 H2 H3 H4 ->]. destruct K as [a2 b2 c2 d2 w2 x2 y2 z2 m K1 K2 K3 K4 ->].
  cbn [app]. intros E. injection E as <- <- <- <- <-.
  rewrite (hex_fun _ _ _ H1 K1), (hex_fun _ _ _ H2 K2), (hex_fun _ _ _ H3 K3), (hex_fun _ _ _ H4 K4). auto.
Qed.
Lemma unit_shape s n : unit_text s n -> exists r, s = 92 :: 117 :: r.
Proof. intros H. inversion H. eauto. Qed.
Lemma char_prefix s t n m a b : char_text s n -> char_text t m -> s ++ a = t ++ b -> s = t /\ n = m /\ a = b.
Proof.
  intros H K E.
  destruct H as [c L1 L2 L3|e c I|s n U R|s1 s2 h l n U1 U2 R1 R2 ->];
  destruct K as [c' L1' L2' L3'|e' c' I'|t m U' R'|t1 t2 h' l' m U1' U2' R1' R2' ->].
  - injection E as <- <-. auto.
  - injection E as E1 E2. congruence.
  - destruct (unit_shape _ _ U') as (r & ->). injection E as E1 E2. congruence.
  - destruct (unit_shape _ _ U1') as (r & ->). injection E as E1 E2. congruence.
  - injection E as E1 E2. congruence.
  - injection E as <- <-. split; [reflexivity|]. split; [|reflexivity].
    cbn in I, I'. repeat (destruct I as [I|I]; [repeat (destruct I' as [I'|I']; [congruence|]); destruct I'|]). destruct I.
  - destruct (unit_shape _ _ U') as (r & ->). injection E as -> E2. exfalso. cbn in I.
    repeat (destruct I as [I|I]; [discriminate|]). exact I.
  - destruct (unit_shape _ _ U1') as (r & ->). injection E as -> E2. exfalso. cbn in I.
    repeat (destruct I as [I|I]; [discriminate|]). exact I.
  - destruct (unit_shape _ _ U) as (r & ->). injection E as E1 E2. congruence.
  - destruct (unit_shape _ _ U) as (r & ->). injection E as <- E2. exfalso. cbn in I'.
    repeat (destruct I' as [I'|I']; [discriminate|]). exact I'.
  - now apply (unit_prefix _ _ _ _ _ _ U U').
  - rewrite <- app_assoc in E. destruct (unit_prefix _ _ _ _ _ _ U U1' E) as (_ & Q & _). lia.
  - destruct (unit_shape _ _ U1) as (r & ->). injection E as E1 E2. congruence.
  - destruct (unit_shape _ _ U1) as (r & ->). injection E as <- E2. exfalso. cbn in I'.
    repeat (destruct I' as [I'|I']; [discriminate|]). exact I'.
  - rewrite <- app_assoc in E. destruct (unit_prefix _ _ _ _ _ _ U1 U' E) as (_ & Q & _). lia.
  - rewrite <- !app_assoc in E. destruct (unit_prefix _ _ _ _ _ _ U1 U1' E) as (-> & -> & E2).
    destruct (unit_prefix _ _ _ _ _ _ U2 U2' E2) as (-> & -> & ->). auto.
Qed.
Lemma char_nonempty s n : char_text s n -> exists c r, s = c :: r /\ c <> 34.
Proof.
  intros [c L1 L2 L3|e c I|s1 n1 U R|s1 s2 h l n1 U1 U2 R1 R2 _].
  - eauto.
  - exists 92, [e]. split; [reflexivity|discriminate].
  - destruct (unit_shape _ _ U) as (r & ->). eexists _, _. split; [reflexivity|discriminate].
  - destruct (unit_shape _ _ U1) as (r & ->). eexists _, _. split; [reflexivity|discriminate].
Qed.
Lemma string_prefix s n : string_text s n -> forall t m a b, string_text t m -> s ++ 34 :: a = t ++ 34 :: b -> n = m /\ a = b.
Proof.
  induction 1 as [|s c r cs Hc Hr IH]; intros t m a b K E.
  - inversion K as [|t1 d t2 ds Kc Kr]; subst; [now injection E as <-|].
    destruct (char_nonempty _ _ Kc) as (x & y & -> & N). injection E as E1 E2. congruence.
  - inversion K as [|t1 d t2 ds Kc Kr]; subst.
    + destruct (char_nonempty _ _ Hc) as (x & y & -> & N). injection E as E1 E2. congruence.
    + rewrite <- !app_assoc in E. destruct (char_prefix _ _ _ _ _ _ Hc Kc E) as (_ & -> & E2).
      destruct (IH _ _ _ _ Kr E2) as [-> ->]. auto.
Qed.
Lemma object_fun n v n' v' t : object_text n v t -> object_text n' v' t -> n = n' /\ v = v'.
Proof.
  intros (s & w & -> & Hs & Hw) (s' & w' & E & Hs' & Hw'). cbn in E. injection E as E.
  destruct (string_prefix _ _ Hs _ _ _ _ Hs' E) as [-> E2]. injection E2 as E2.
  destruct (string_prefix _ _ Hw _ _ _ _ Hw' E2) as [-> _]. auto.
Qed.
Lemma payload_text id : object_text (chars "messageId") id (payload id).
Proof.
  exists (flat_map escape (chars "messageId")), (flat_map escape id). split; [|split; apply escaped_text].
  unfold payload, json_string. change (chars "{") with [123]. change (chars ":") with [58]. change (chars "}") with [125]. cbn [app]. f_equal. f_equal. rewrite <- (app_assoc (flat_map escape (chars "messageId"))). f_equal. cbn [app]. do 3 f_equal. now rewrite <- app_assoc.
Qed.
Lemma escape_scalar c : scalar_value c -> Forall scalar_value (escape c).
Proof.
  intros H. unfold escape.
  assert (S : forall x, x < 1000 -> scalar_value x) by (intros x Hx; left; lia).
  repeat match goal with |- context [N.eqb ?x ?y] => destruct (N.eqb_spec x y) as [->|?]; [repeat (apply Forall_cons; [apply S; reflexivity|]); apply Forall_nil|] end.
  destruct (N.ltb_spec c 32) as [L|L]; [|now constructor].
  assert (A : c / 16 < 16) by (apply N.div_lt_upper_bound; lia). assert (B : c mod 16 < 16) by (apply N.mod_lt; lia).
  assert (D : forall x, x < 16 -> hex_lower x < 1000) by (intros x Hx; unfold hex_lower; destruct (N.ltb_spec x 10); lia).
  repeat (apply Forall_cons; [apply S; try reflexivity; now apply D|]). apply Forall_nil.
Qed.
Lemma payload_scalar id : Forall scalar_value id -> Forall scalar_value (payload id).
Proof.
  intros H. unfold payload, json_string.
  assert (A : forall l, forallb (fun c => c <? 1000) l = true -> Forall scalar_value l).
  { intros l Hl. rewrite forallb_forall in Hl. apply Forall_forall. intros x Hx. specialize (Hl x Hx). apply N.ltb_lt in Hl. left. lia. }
  repeat (apply Forall_app; split); try (apply A; reflexivity).
  constructor; [left; lia|]. apply Forall_app. split; [|apply A; reflexivity].
  induction H as [|c t Hc Ht IH]; cbn; [constructor|]. apply Forall_app. split; [now apply escape_scalar|exact IH].
Qed.
