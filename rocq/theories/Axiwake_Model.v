(** Axisymmetric partial wakes (foxes/models/partial_wakes/axiwake.py). One state and one target: x is the downwind distance
    of the target's rotor centre, dist its distance from the wake centre (128-133), D the rotor diameter found by the lookup
    "w" (116-125), which is that of the wake causing turbine; n the number of radii (32). *)
From Verif Require Import RBase Circles_Model.
Local Open Scope R_scope.

(** 154-161: np.linspace(0, 1, n + 1)[k] = k / n *)
Definition radius_out (n : nat) (D dist : R) (k : nat) : R := dist + D * (INR k / INR n - 1 / 2).
(** 178-187: 0, then (dist + D/2) / (n - 0.5) * (0.5 + (k - 1)) *)
Definition radius_in (n : nat) (D dist : R) (k : nat) : R :=
  match k with O => 0 | S k' => (dist + D / 2) / (INR n - 1 / 2) * (1 / 2 + INR k') end.
(** R1, 157-158 and 179-180 *)
Definition rotor_in (D : R) (k : nat) : R := match k with O => 0 | S _ => D / 2 end.
(** areas between successive radii, 164-165 and 192-193 *)
Definition area_out (n : nat) (D dist : R) (k : nat) : R :=
  calc_area (D / 2) (radius_out n D dist (S k)) dist - calc_area (D / 2) (radius_out n D dist k) dist + / 10 ^ 15.
(** axiwake.py:192-193 *)
Definition area_in (n : nat) (D dist : R) (k : nat) : R :=
  calc_area (rotor_in D (S k)) (radius_in n D dist (S k)) dist - calc_area (rotor_in D k) (radius_in n D dist k) dist.
(** 149 and 171 *)
Inductive region := Outside | Inside | Nowhere.
(** axiwake.py:149, 171: the selections sel0 and sel *)
Definition where_is (D x dist : R) : region :=
  if Rltb (/ 10 ^ 8) x && Rltb (D / 2) dist then Outside
  else if Rltb 0 x && Rltb dist (D / 2) then Inside else Nowhere.
(** 139, 167, 194 *)
Definition axi_weight (n : nat) (D x dist : R) (k : nat) : R :=
  match where_is D x dist with
  | Outside => area_out n D dist k / rsum (map (area_out n D dist) (seq 0 n))
  | Inside => area_in n D dist k / rsum (map (area_in n D dist) (seq 0 n))
  | Nowhere => 0
  end.
(** the radii at which the wake model is evaluated, 134, 162, 188-190 *)
Definition axi_radius (n : nat) (D x dist : R) (k : nat) : R :=
  match where_is D x dist with
  | Outside => 1 / 2 * (radius_out n D dist (S k) + radius_out n D dist k)
  | Inside => match k with O => 0 | S _ => 1 / 2 * (radius_in n D dist (S k) + radius_in n D dist k) end
  | Nowhere => 0
  end.
(** 198-203: the delta handed to the superposition; w: the wake model at x as function of the radius *)
Definition axi_delta (n : nat) (D x dist : R) (w : R -> R) : R :=
  rsum (map (fun k => w (axi_radius n D x dist k) * axi_weight n D x dist k) (seq 0 n)).
