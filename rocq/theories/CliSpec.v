(** Vocabulary for the properties of [validate] *)
From Verif Require Import Base Chars CliModel.
Local Open Scope list_scope.

(** Events received, in order *)
Definition events (tr : list act) : list event := flat_map (fun a => match a with AEvent e => [e] | _ => [] end) tr.
(** What is reported of an error of a request: that of authentication is replaced by an
    explanation *)
Definition reported (e : error) : error := match e with AuthPrep _ => AuthHelp | _ => e end.
(** What ends the command, and with which result *)
Inductive stops : act -> option error -> Prop :=
| stop_create d e : stops (ACreate d (Some e)) (Some (reported e))
| stop_open e : stops (AOpen (Some e)) (Some e)
| stop_error e : stops (AErr (Some e)) (Some e)
| stop_done e : stops (ADone e) (Some e)
| stop_closed : stops AClosed None.

(** Whether the results are shown, after these messages *)
Fixpoint viewing (start : bool) (tr : list obs) : bool :=
  match tr with
  | [] => start
  | OMsg (MSelect _) :: tr' => viewing true tr'
  | OMsg MClear :: tr' => viewing false tr'
  | _ :: tr' => viewing start tr'
  end.
(** Events that the session received from the engine *)
Definition handed (tr : list obs) : list event := flat_map (fun o => match o with OEvent e => [e] | _ => [] end) tr.
(** A validation was asked for *)
Definition creations (tr : list obs) : list document := flat_map (fun o => match o with OCreate d _ => [d] | _ => [] end) tr.
(** An error message was taken while the results were shown *)
Definition error_seen (start : bool) (tr : list obs) (e : error) : Prop :=
  exists a b, tr = a ++ OMsg (MErr (Some e)) :: b /\ viewing start a = true.
(** No file is selected, or given up, here *)
Definition no_select (tr : list obs) : Prop := forall f, ~ In (OMsg (MSelect f)) tr.
Definition no_clear (tr : list obs) : Prop := ~ In (OMsg MClear) tr.
