(** Specification vocabulary: the right-point sum up to [x] with step [dx], the last cell taken in proportion. *)
From Verif Require Import RBase.
Local Open Scope R_scope.

Definition riemann (f : R -> R) (dx x : R) : R :=
  let i := Z.to_nat (rfloor (x / dx)) in rsum (map (fun j => f (INR (S j) * dx) * dx) (seq 0 i)) + (x - INR i * dx) * f (INR (S i) * dx).
(** Lipschitz continuity for non-negative arguments *)
Definition lipschitz (f : R -> R) (L : R) : Prop := forall y z, 0 <= y -> 0 <= z -> Rabs (f y - f z) <= L * Rabs (y - z).
