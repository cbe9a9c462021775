(** Specification of groups of turbines that do not reach each other (C243). *)
From Verif Require Import Base FarmWakes_Model.

Section S.
  Context {T F D W : Type}.
  Variable ev : T -> W -> F.
  (** The turbines marked by [off] have no effect on those not marked, in any wake model, whatever wind they see: e.g. the turbines of another wind farm whose wakes do not reach this one.
      Nothing is said about the effects within both groups, and about those on marked turbines. *)
  Definition unreached (off : T -> bool) (ws : list (@wmodel T F D W)) : Prop :=
    forall w, In w ws -> forall t x t' d, off t = true -> off t' = false -> w_contrib w t (ev t x) t' d = d.
End S.
