(** Specification vocabulary for yawed wakes. *)
From Verif Require Import RBase Induction_Spec Yaw_Model.
Local Open Scope R_scope.

(** a turbine with positive diameter, thrust in (0, 1], turbulence and parameters positive, wake growth positive, yaw
    misalignment below 90 degrees, induction model physical *)
Definition yaw_ok (ct2a : R -> R) (p : ypar) : Prop :=
  0 < yD p /\ 0 < yct p <= 1 /\ 0 < yti p /\ 0 < yalpha p /\ 0 <= ybeta p /\ 0 < yk p /\ 0 < cos (ygamma p) /\
  physical ct2a (yct p) /\ (forall c, 0 < c -> 0 < ct2a c).
(** one-sided limits *)
Definition left_limit (f : R -> R) (a l : R) : Prop := forall eps, 0 < eps -> exists del, 0 < del /\ forall x, a - del < x < a -> Rabs (f x - l) < eps.
Definition right_limit (f : R -> R) (a l : R) : Prop := forall eps, 0 < eps -> exists del, 0 < del /\ forall x, a < x < a + del -> Rabs (f x - l) < eps.
