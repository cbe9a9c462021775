(** Specification for C254. *)
From Verif Require Import RBase Superp_Model Curves_Model Curves_Spec Symm_Model Whole_Model Whole_Spec.
Local Open Scope R_scope.

(** the deficits do not shrink with the wind speed at the turbine that causes them: they refer to the ambient wind speed, either at the turbine (scale_amb) or at the target (local superpositions) *)
Definition of_ambient (c : scene) : Prop := c_amb c = true \/ match c_s c with WSLinearLocal | WSQuadraticLocal | WSMaxLocal | WSPowLocal _ => True | _ => False end.
(** between the lower limit and the wind speed of the state, the thrust coefficient does not fall with less wind; for Gaussian wakes: it is the same *)
Definition steady_thrust (c : scene) (y : ttype) : Prop :=
  forall u v a b, (forall l, c_low c = Some l -> l <= u) -> u <= v -> v <= c_wsp c -> interp (y_C y) u = Ok a -> interp (y_C y) v = Ok b ->
    match c_def c with Jensen => b <= a | Gauss _ => a = b end.
