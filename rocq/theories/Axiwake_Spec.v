(** The area of the part of a rotor disc of radius rt that lies at distances between a and b from a point at distance dist
    from the disc's centre. *)
From Verif Require Import RBase Circles_Spec.
Local Open Scope R_scope.

Definition ring_area (rt a b dist : R) : R := overlap_area rt b dist - overlap_area rt a dist.
Definition disc (rt : R) : R := PI * (rt * rt).
(** the wake centre is strictly inside (in) or strictly outside (out) of the rotor disc, and the target is downwind *)
Definition inside (D x dist : R) : Prop := 0 < x /\ 0 <= dist < D / 2.
Definition outside (D x dist : R) : Prop := / 10 ^ 8 < x /\ D / 2 < dist.
