(** Specification vocabulary for the farm wake calculation. *)
From Verif Require Import Base FarmWakes_Model.

Section S.
  Context {T F D W : Type}.
  Variable amb : T -> W.
  Variable ev : T -> W -> F.
  Definition all_down (ws : list (@wmodel T F D W)) : Prop := Forall (fun w => w_down w = true) ws.
  Definition all_up (ws : list (@wmodel T F D W)) : Prop := Forall (fun w => w_down w = false) ws.

  (** Turbines in processing order such that no turbine influences one processed before it. *)
  Definition acts_downstream (ws : list (@wmodel T F D W)) (ts : list T) : Prop :=
    forall w, In w ws -> forall i j t t', i < j -> nth_error ts i = Some t -> nth_error ts j = Some t' ->
      forall f d, w_contrib w t' f t d = d.
  (** Without contributions a wake model changes nothing. *)
  Definition neutral (ws : list (@wmodel T F D W)) : Prop :=
    forall w, In w ws -> forall t x, w_add w t x (w_new w t) = x.
  (** A wake model listed earlier does not read what a later one changes. *)
  Definition no_feedback (ws : list (@wmodel T F D W)) : Prop :=
    forall i j w w', i < j -> nth_error ws i = Some w -> nth_error ws j = Some w' ->
      forall t x d t' d', w_contrib w t (ev t (w_add w' t x d)) t' d' = w_contrib w t (ev t x) t' d'.
End S.
