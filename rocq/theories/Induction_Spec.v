(** Specification vocabulary: what is needed of an induction model on the used thrust range. *)
From Verif Require Import RBase.
Local Open Scope R_scope.

(** non-negative, monotone and at most 1/2 up to thrust [top] *)
Definition physical (ct2a : R -> R) (top : R) : Prop :=
  (forall ct, 0 <= ct -> 0 <= ct2a ct) /\ (forall c c', 0 <= c <= c' -> ct2a c <= ct2a c') /\
  (forall ct, 0 <= ct <= top -> ct2a ct < 1 / 2).
