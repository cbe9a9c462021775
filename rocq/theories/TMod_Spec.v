(** Specification vocabulary: thrust, vertical profiles from data. *)
From Verif Require Import RBase Superp_Model PointWakes_Model.
Local Open Scope R_scope.
(** thrust of a rotor: T = 1/2 rho A ws^2 ct, with the rotor area A *)
Definition rotor_thrust (rho D ws ct : R) : R := 1 / 2 * rho * (PI * (D / 2) ^ 2) * ws ^ 2 * ct.
(** v is the value at height h of the piecewise linear curve through the data: on the line between two rows that have no
    other row between them *)
Definition on_curve (rows : list (R * R)) (h v : R) : Prop :=
  exists z0 v0 z1 v1, In (z0, v0) rows /\ In (z1, v1) rows /\ z0 <= h <= z1 /\
    (forall z w, In (z, w) rows -> z <= z0 \/ z1 <= z) /\ (v - v0) * (z1 - z0) = (v1 - v0) * (h - z0) /\ (z0 = z1 -> v = v0).
(** no turbine changes the point of its own hub or of a turbine listed before it *)
Definition hubs_downstream {T F P} (hub : T -> P) (ms : list (swake T F P)) (ts : list T) : Prop :=
  forall m, In m ms -> forall i j t t', (i <= j)%nat -> nth_error ts i = Some t -> nth_error ts j = Some t' -> forall f, sm_c m t' f (hub t) = None.
