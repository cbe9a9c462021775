(** What a user of ready-made point models relies on. *)
From Verif Require Import RBase ModelList_Model.
Local Open Scope R_scope.
(** the model is one of the models of a list, or of a list in the list *)
Inductive uses {V} (x : @model V) : @model V -> Prop :=
| uses_self : uses x x
| uses_in : forall m ms, In m ms -> uses x m -> uses x (MList ms).
(** turbulence intensity of turbulence with the kinetic energy [k] and equal fluctuations in all three directions: the energy is half
    of the sum of the three variances, the turbulence intensity the standard deviation of one component over the wind speed *)
Definition isotropic (k ws ti : R) : Prop := exists s, 0 <= s /\ k = / 2 * (s ^ 2 + s ^ 2 + s ^ 2) /\ ti = s / ws.
