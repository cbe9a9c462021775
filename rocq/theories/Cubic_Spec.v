(** What a root is. *)
From Verif Require Import RBase Cubic_Model.
Local Open Scope R_scope.
(** the polynomial a0 + a1 x + a2 x^2 + a3 x^3 *)
Definition poly (p : coef) (x : R) : R := a0 p + a1 p * x + a2 p * (x * x) + a3 p * (x * x * x).
(** power coefficient of a rotor with axial induction [a] (momentum theory), in units of the efficiency *)
Definition cp_of (a : R) : R := 4 * a * ((1 - a) * (1 - a)).
