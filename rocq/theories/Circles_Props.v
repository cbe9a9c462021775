(** Theorems about the two-circle area and top-hat partial wakes. *)
From Verif Require Import RBase Circles_Model Circles_Spec Circles_Proofs.
Local Open Scope R_scope.

(** C32: calc_area is the area of the intersection of the discs (integral of the slice lengths), for all radii
    and distances; with all that follows from it. *)
Theorem C32_is_intersection_area r1 r2 d : 0 < r1 -> 0 < r2 -> 0 <= d -> calc_area r1 r2 d = overlap_area r1 r2 d.
Proof. exact (calc_area_overlap r1 r2 d). Qed.
Print Assumptions C32_is_intersection_area.
Theorem C32_bounds r1 r2 d : 0 < r1 -> 0 < r2 -> 0 <= d -> 0 <= calc_area r1 r2 d <= PI * (Rmin r1 r2 * Rmin r1 r2).
Proof. intros H1 H2 Hd. rewrite calc_area_overlap by assumption. now apply overlap_bounds. Qed.
Print Assumptions C32_bounds.
Theorem C32_symmetric r1 r2 d : 0 < r1 -> 0 < r2 -> 0 <= d -> calc_area r1 r2 d = calc_area r2 r1 d.
Proof. intros H1 H2 Hd. rewrite !calc_area_overlap by assumption. apply overlap_sym; lra. Qed.
Print Assumptions C32_symmetric.
Theorem C32_disjoint_or_contained r1 r2 d : 0 < r1 -> 0 < r2 -> 0 <= d ->
  (r1 + r2 <= d -> calc_area r1 r2 d = 0) /\ (d <= Rabs (r1 - r2) -> calc_area r1 r2 d = PI * (Rmin r1 r2 * Rmin r1 r2)).
Proof. exact (calc_area_extremes r1 r2 d). Qed.
Print Assumptions C32_disjoint_or_contained.
Theorem C32_grows_with_radius r1 r2 r2' d : 0 < r1 -> 0 < r2 <= r2' -> 0 <= d -> calc_area r1 r2 d <= calc_area r1 r2' d.
Proof. intros H1 H2 Hd. rewrite !calc_area_overlap by lra. now apply overlap_mono_radius. Qed.
Print Assumptions C32_grows_with_radius.
(** a proper lens: two unit circles through each other's centres overlap in 2 pi/3 - sqrt(3)/2 *)
Example C32_nonvacuous : calc_area 1 1 1 = 2 * (PI / 3) - sqrt (3 / 4).
Proof.
  unfold calc_area. rdec; try lra. unfold area, area_part. cbn zeta.
  replace ((1 * 1 - 1 * 1 + 1 * 1) / (2 * 1)) with (1 / 2) by lra.
  replace (1 - 1 / 2) with (1 / 2) by lra. replace (1 / 2 / 1) with (1 / 2) by lra.
  rewrite (Rmin_left (1 / 2) 1) by lra. rewrite (Rmax_left (1 / 2) (-1)) by lra. rewrite (Rmax_left (1 * 1 - 1 / 2 * (1 / 2)) 0) by lra.
  replace (1 * 1 - 1 / 2 * (1 / 2)) with (3 / 4) by lra.
  replace (acos (1 / 2)) with (PI / 3); [lra|]. rewrite <- cos_PI3. symmetry. apply acos_cos. pose proof PI_RGT_0. lra.
Qed.

(** C33 *)
Theorem C33_weight_is_overlap_fraction D wr dist : 0 < D -> 0 < wr -> 0 <= dist ->
  top_hat_weight D wr dist = overlap_area (D / 2) wr dist / (PI * ((D / 2) * (D / 2))).
Proof. exact (weight_area D wr dist). Qed.
Print Assumptions C33_weight_is_overlap_fraction.
Theorem C33_weight_in_unit_interval D wr dist : 0 < D -> 0 < wr -> 0 <= dist -> 0 <= top_hat_weight D wr dist <= 1.
Proof. exact (weight_unit D wr dist). Qed.
Print Assumptions C33_weight_in_unit_interval.
Theorem C33_inside_and_outside D wr dist : 0 < D -> 0 < wr -> 0 <= dist ->
  (dist + D / 2 <= wr -> top_hat_weight D wr dist = 1) /\ (wr + D / 2 <= dist -> top_hat_weight D wr dist = 0).
Proof. exact (weight_in_out D wr dist). Qed.
Print Assumptions C33_inside_and_outside.

(** C77 is false: the weight is computed for a rotor of the wake causing turbine's size. A target with twice the
    diameter, fully covering the wake, gets weight 1 although the wake covers a quarter of its rotor. *)
Theorem C77_target_rotor_refuted :
  top_hat_weight 2 1 0 = 1 /\ overlap_area (4 / 2) 1 0 / (PI * ((4 / 2) * (4 / 2))) = 1 / 4.
Proof.
  pose proof PI_RGT_0 as Pi. split.
  - apply C33_inside_and_outside; lra.
  - rewrite overlap_contained by lra. field. lra.
Qed.
Print Assumptions C77_target_rotor_refuted.
(** It is the fraction of the target's rotor whenever both turbines have the same rotor diameter. *)
Theorem C77_equal_diameters_partial Ds Dt wr dist : Ds = Dt -> 0 < Dt -> 0 < wr -> 0 <= dist ->
  top_hat_weight Ds wr dist = overlap_area (Dt / 2) wr dist / (PI * ((Dt / 2) * (Dt / 2))).
Proof. intros ->. exact (weight_area Dt wr dist). Qed.
Print Assumptions C77_equal_diameters_partial.
