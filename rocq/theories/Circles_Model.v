(** Intersection area of two circles and the top-hat partial wake weight. One array element. *)
From Verif Require Import RBase.
Local Open Scope R_scope.

(** foxes/utils/two_circles.py:39-48, one of the two parts: r, d1 -> r^2 acos(a) - d1 sqrt(b) with clipped a, b *)
Definition area_part (r d1 : R) : R :=
  let a := Rmax (Rmin (d1 / r) 1) (-1) in
  let b := Rmax (r * r - d1 * d1) 0 in
  r * r * acos a - d1 * sqrt b.
(** foxes/utils/two_circles.py:4-55 area *)
Definition area (r1 r2 d : R) : R :=
  let d1 := (r1 * r1 - r2 * r2 + d * d) / (2 * d) in
  let d2 := d - d1 in
  area_part r1 d1 + area_part r2 d2.
(** foxes/utils/two_circles.py:58-119 calc_area *)
Definition calc_area (r1 r2 d : R) : R :=
  if Rltb d (r1 + r2) then
    if Rleb r2 r1 then
      if Rleb d (r1 - r2) then PI * (r2 * r2) else area r1 r2 d
    else
      if Rleb d (r2 - r1) then PI * (r1 * r1) else area r2 r1 d
  else 0.
(** foxes/models/partial_wakes/top_hat.py:151-183, PartialTopHat.contribute: the weight of the wake of a
    turbine with rotor diameter [D] (line 156-165, lookup "w": the diameter of the wake causing turbine) and wake
    radius [wr] at a target whose rotor centre is at distance [dist] from the wake centreline; zero if not selected. *)
Definition top_hat_weight (D wr dist : R) : R :=
  if Rltb (dist - D / 2) wr then calc_area (D / 2) wr dist / (PI * ((D / 2) * (D / 2))) else 0.
