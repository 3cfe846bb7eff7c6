(** JSON values as used by the runtime (serde_json::Value, which is third-party
    code: its data type is transcribed, objects are association lists). *)
From Coq Require Export SpecFloat.
From Verif Require Import Base.
Open Scope string_scope.

(** serde_json::Number: an integer in [-2^63, 2^64) or an IEEE double. *)
Inductive num := NInt (z : Z) | NFloat (f : spec_float).

Inductive json :=
| JNull
| JBool (b : bool)
| JNum (n : num)
| JStr (s : string)
| JArr (l : list json)
| JObj (m : list (string * json)).

Section JsonInd.
  Variable P : json -> Prop.
  Hypothesis Hnull : P JNull.
  Hypothesis Hbool : forall b, P (JBool b).
  Hypothesis Hnum : forall n, P (JNum n).
  Hypothesis Hstr : forall s, P (JStr s).
  Hypothesis Harr : forall l, Forall P l -> P (JArr l).
  Hypothesis Hobj : forall m, Forall (fun kv => P (snd kv)) m -> P (JObj m).
  (** Induction over values with the induction hypothesis for every element. *)
  Fixpoint json_rect_nested (j : json) : P j :=
    match j with
    | JNull => Hnull
    | JBool b => Hbool b
    | JNum n => Hnum n
    | JStr s => Hstr s
    | JArr l => Harr l ((fix go l := match l return Forall P l with
                         | [] => Forall_nil _
                         | x :: r => Forall_cons _ (json_rect_nested x) (go r) end) l)
    | JObj m => Hobj m ((fix go m := match m return Forall (fun kv => P (snd kv)) m with
                         | [] => Forall_nil _
                         | kv :: r => Forall_cons _ (json_rect_nested (snd kv)) (go r) end) m)
    end.
End JsonInd.
