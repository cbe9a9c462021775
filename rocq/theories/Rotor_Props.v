(** Theorems about rotor models. *)
From Verif Require Import RBase WindDir_Model WindDir_Proofs Rotor_Model Rotor_Spec Rotor_Proofs.
Local Open Scope R_scope.

(** C38 *)
Theorem C38_grid_is_good_rule n nint red : (0 < n)%nat -> (0 < nint)%nat -> good_rule (grid_points n nint red).
Proof. exact (grid_good n nint red). Qed.
Print Assumptions C38_grid_is_good_rule.
Theorem C38_levels_are_good_rule n nint red : (0 < n)%nat -> (3 <= nint)%nat \/ red = false -> good_rule (level_points n nint red).
Proof. exact (level_good n nint red). Qed.
Print Assumptions C38_levels_are_good_rule.
Theorem C38_centre_is_good_rule : good_rule centre_points.
Proof. exact centre_good. Qed.
Print Assumptions C38_centre_is_good_rule.
(** uniform inflow along the rotor axis, for every such rule *)
Theorem C38_uniform_wind l wd ws : good_rule l -> 0 <= ws ->
  let q := inflows (fun _ => wd) (fun _ => ws) l in
  rotor_ws q = ws /\ (0 < ws -> rotor_wd q = rmod wd 360) /\ rews wd q = ws /\ rews2 wd q = ws /\ rews3 wd q = Some ws.
Proof. exact (uniform_all l wd ws). Qed.
Print Assumptions C38_uniform_wind.
Theorem C38_other_variables l c : good_rule l -> rotor_mean (map (fun p => (c, pw p)) l) = c.
Proof. exact (mean_const l c). Qed.
Print Assumptions C38_other_variables.
(** linear shear over the rotor does not change REWS *)
Theorem C38_linear_shear l wd ws sy sz : good_rule l -> 0 <= ws ->
  rews wd (inflows (fun _ => wd) (fun p => ws + sy * py p + sz * pz p) l) = ws.
Proof. exact (linear_shear l wd ws sy sz). Qed.
Print Assumptions C38_linear_shear.
(** REWS lies between zero and the largest wind speed on the rotor, for any yaw *)
Theorem C38_rews_bounds yaw (l : list inflow) m : (forall q, In q l -> 0 <= i_w q) -> rsum (map i_w l) = 1 ->
  (forall q, In q l -> 0 <= i_ws q <= m) -> 0 <= rews yaw l /\ (0 <= m -> rews yaw l <= m).
Proof. exact (rews_bound yaw l m). Qed.
Print Assumptions C38_rews_bounds.
(** the limit on nint is needed: two sub-levels leave no rotor point at all *)
Theorem C38_two_sublevels_leave_no_points n : level_points n 2 true = [].
Proof. exact (level_nint2_empty n). Qed.
Print Assumptions C38_two_sublevels_leave_no_points.
(** 2 x 2 grid without reduction: four points of weight 1/4 *)
Example C38_nonvacuous : length (grid_points 2 1 false) = 4%nat /\ forall p, In p (grid_points 2 1 false) -> pw p = 1 / 4.
Proof.
  split; [reflexivity|]. intros p Hp. unfold grid_points in Hp. apply in_map_iff in Hp. destruct Hp as (ij & E & _). subst p.
  cbn [pw Nat.mul Nat.add INR]. lra.
Qed.

(** C81: geometry of the rotor points *)
Theorem C81_points_in_rotor_plane c yaw D p : let n := wd2uv yaw 1 in dot (vsub (rotor_point c yaw D p) c) (fst n, snd n, 0) = 0.
Proof. exact (rotor_point_plane c yaw D p). Qed.
Print Assumptions C81_points_in_rotor_plane.
Theorem C81_distance_from_hub c yaw D p : let d := vsub (rotor_point c yaw D p) c in
  dot d d = (D / 2) * (D / 2) * (py p * py p + pz p * pz p).
Proof. cbn zeta. rewrite rotor_point_dist. field. Qed.
Print Assumptions C81_distance_from_hub.
Theorem C81_weighted_centre_is_hub l c yaw D : good_rule l ->
  rsum (map (fun p => pw p * vx (rotor_point c yaw D p)) l) = vx c /\
  rsum (map (fun p => pw p * vy (rotor_point c yaw D p)) l) = vy c /\
  rsum (map (fun p => pw p * vz (rotor_point c yaw D p)) l) = vz c.
Proof. exact (rotor_mean_position l c yaw D). Qed.
Print Assumptions C81_weighted_centre_is_hub.
(** west wind: a point one radius to the left of the axis is at larger y *)
Example C81_nonvacuous : rotor_point (0, 0, 100) 270 80 {| py := 1; pz := 0; pw := 1 |} = (0, 40, 100).
Proof.
  assert (N : wd2uv 270 1 = (1, 0)).
  { unfold wd2uv, wd2wdvec. cbn [fst snd]. replace (270 * PI / 180) with (3 * (PI / 2)) by field. rewrite sin_3PI2, cos_3PI2. f_equal; ring. }
  unfold rotor_point. rewrite N. unfold vx, vy, vz. cbn [fst snd py pz]. f_equal; [f_equal|]; field.
Qed.

(** C80 is false: the centre rotor yields a negative rotor effective wind speed when the rotor is turned by more than
    90 degrees, and the one-point grid rotor then disagrees in all three moments. *)
Theorem C80_never_negative_refuted : exists q : inflow, i_ws q = 10 /\ i_w q = 1 /\ centre_rews 180 q = -10 /\
  rews 180 [q] = 0 /\ rews2 180 [q] = 10 /\ rews3 180 [q] = None.
Proof.
  exists {| i_wd := 0; i_ws := 10; i_w := 1 |}. assert (W : wsp 180 {| i_wd := 0; i_ws := 10; i_w := 1 |} = -10).
  { rewrite wsp_cos. cbn [i_wd i_ws]. replace ((0 - 180) * PI / 180) with (- PI) by field. rewrite cos_neg, cos_PI. ring. }
  split; [reflexivity|]. split; [reflexivity|]. unfold centre_rews, rews, rews2, rews3. cbn [map rsum length Nat.ltb Nat.leb]. cbn zeta. rewrite W. cbn [i_w].
  split; [reflexivity|]. split; [rewrite Rmax_right; lra|]. split.
  - replace (1 * (-10 * -10) + 0) with (10 * 10) by ring. apply sqrt_square. lra.
  - rewrite (proj2 (Rltb_true _ _)) by lra. reflexivity.
Qed.
Print Assumptions C80_never_negative_refuted.
(** All rotors except the centre rotor give non-negative REWS; within 90 degrees all of them agree for one point. *)
Theorem C80_within_90_degrees yaw q : i_w q = 1 -> 0 <= i_ws q -> Rabs (i_wd q - yaw) <= 90 ->
  0 <= centre_rews yaw q /\ rews yaw [q] = centre_rews yaw q /\ rews2 yaw [q] = centre_rews yaw q /\ rews3 yaw [q] = Some (centre_rews yaw q).
Proof. exact (centre_agrees yaw q). Qed.
Print Assumptions C80_within_90_degrees.
