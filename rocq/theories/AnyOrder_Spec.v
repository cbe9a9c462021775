(** Specification vocabulary: processing orders. *)
From Verif Require Import Base Order_Model Order_Spec FarmWakes_Model FarmWakes_Spec.
Section S.
  Context {T F D W K : Type}.
  (** no turbine acts on a turbine that is processed before it *)
  Definition admissible (dT : T) (ws : list (@wmodel T F D W)) (farm : list T) (order : list nat) : Prop :=
    isperm (length farm) order /\
    forall k l, k < l -> l < length farm -> forall w, In w ws -> forall f d,
      w_contrib w (nth (nth l order 0) farm dT) f (nth (nth k order 0) farm dT) d = d.
  (** the contributions of two turbines to a third one can be added in any order *)
  Definition contributions_commute (ws : list (@wmodel T F D W)) : Prop :=
    forall w, In w ws -> forall s f s' f' t d,
      w_contrib w s f t (w_contrib w s' f' t d) = w_contrib w s' f' t (w_contrib w s f t d).
  (** turbines act only on turbines that are strictly downstream of them *)
  Definition strictly_downstream (leb : K -> K -> bool) (key : T -> K) (ws : list (@wmodel T F D W)) : Prop :=
    forall w, In w ws -> forall s f t d, leb (key t) (key s) = true -> w_contrib w s f t d = d.
  (** an order with non-decreasing along-wind coordinate, ties in any order *)
  Definition sorted_order (dT : T) (leb : K -> K -> bool) (key : T -> K) (farm : list T) (order : list nat) : Prop :=
    isperm (length farm) order /\
    forall k l, k < l -> l < length farm -> leb (key (nth (nth k order 0) farm dT)) (key (nth (nth l order 0) farm dT)) = true.
End S.
