(** Specification vocabulary for point and farm wakes. *)
From Verif Require Import RBase Superp_Model PointWakes_Model.
Local Open Scope R_scope.

(** superpositions whose result does not refer to the ambient value: sums, root sums of squares, maxima and power sums of absolute wind
    deficits without limits; turbulence superpositions that add linearly to the ambient value *)
Definition ignores_ambient {T F P} (m : swake T F P) : bool :=
  match sm_s m with
  | WSLinear | WSQuadratic | WSMax | WSPow _ => match sm_low m, sm_high m with None, None => true | _, _ => false end
  | WSLinearLocal | WSQuadraticLocal | WSMaxLocal | WSPowLocal _ => false
  | TILinear | TIQuadratic | TIMax | TIPow _ => negb (sm_quad m)
  end.
(** the ambient values are non-negative and respect the limits *)
Definition in_limits {T F P} (amb : P -> R) (m : swake T F P) (p : P) : Prop :=
  0 <= amb p /\ (forall l, sm_low m = Some l -> l <= amb p) /\ (forall h, sm_high m = Some h -> amb p <= h).
(** a wake reaches the hubs strictly downstream of its turbine only *)
Definition downstream_only {T F P K} (leb : K -> K -> bool) (key : T -> K) (hub : T -> P) (m : swake T F P) : Prop :=
  forall t f t', leb (key t') (key t) = true -> sm_c m t f (hub t') = None.
