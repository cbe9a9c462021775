(** Specification vocabulary: how much results change if the input changes a little (C247). *)
From Verif Require Import RBase Superp_Model PointWakes_Model.
Local Open Scope R_scope.
(** the wind speed loss (negative) or gain of a contribution: scale times wake model result *)
Definition loss (c : contrib) : R := match c with None => 0 | Some (scale, r) => scale * r end.
(** wind speed superpositions that scale with a wind speed of the wake causing turbine; powers p >= 1 *)
Definition rotor_scaled (s : superp) : Prop := match s with WSLinear | WSQuadratic | WSMax => True | WSPow p => 1 <= p | _ => False end.
Section S.
  Context {T P : Type}.
  Variable hub : T -> P.
  (** Two wake models with the same superposition and limits, e.g. with two thrust curves: the wind speed losses differ at most by [eta], plus [L] times the difference
      of the wind speeds at the wake causing turbine *)
  Definition nearly (L eta : T -> T -> R) (m m' : swake T R P) : Prop :=
    sm_s m' = sm_s m /\ sm_quad m' = sm_quad m /\ sm_low m' = sm_low m /\ sm_high m' = sm_high m /\
    forall t t' u v, Rabs (loss (sm_c m t u (hub t')) - loss (sm_c m' t v (hub t'))) <= L t t' * Rabs (u - v) + eta t t'.
End S.
(** sum over the turbines in front of number j in the list *)
Definition front_sum {T} (g : nat -> T -> T -> R) (ts : list T) (dT : T) (j : nat) : R := rsum (map (fun i => g i (nth i ts dT) (nth j ts dT)) (seq 0 j)).
