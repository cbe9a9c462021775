(** Induction (blockage) models: vortex sheet, self similar, self similar 2020, Rathmann, Rankine half body. One target point. *)
From Coq Require Import Rpower Reals.
From Flocq Require Import Core.
From Verif Require Import RBase.
Local Open Scope R_scope.

(** np.round(x, 12): round half to even at the twelfth decimal (induction/vortex_sheet.py:153, self_similar.py:211, rathmann.py:180, rankine_half_body.py:187) *)
Definition round12 (x : R) : R := IZR (ZnearestE (x * 1000000000000)) / 1000000000000.

(** induction/vortex_sheet.py:183-224, self_similar.py:214-252, rathmann.py:198-236: the wind speed delta given to the superposition:
    minus the blockage in front of and in the rotor plane, plus the mirrored blockage behind the plane beside the rotor, nothing directly behind it.
    [rel] is the selected side test r > R *)
Definition block_delta (pre_rotor_only : bool) (ct x : R) (beside : bool) (front back : R) : R :=
  if Rltb 1e-8 ct && Rleb x 0 then - front
  else if negb pre_rotor_only && (Rltb 1e-8 ct && Rltb 0 x && beside) then back else 0.

(** induction/vortex_sheet.py:187-190 *)
Definition vs_block (a xi : R) : R := a * (1 + - xi / sqrt (1 + xi * xi)).
(** induction/vortex_sheet.py:152-224 *)
Definition vortex_sheet (ct2a : R -> R) (pre : bool) (D ct wx wy wz : R) : R :=
  let x := round12 wx in
  let r := sqrt (wy * wy + wz * wz) in
  let r_sph := sqrt (r * r + x * x) in
  let b := vs_block (ct2a ct) (r_sph / (D / 2)) in
  block_delta pre ct x (Rltb (D / 2) r) b b.

(** induction/self_similar.py:132 and rathmann.py:185 *)
Definition ss_mu (x_R : R) : R := 1 + x_R / sqrt (1 + x_R * x_R).
(** induction/self_similar.py:144 *)
Definition ss_r_half (x_R : R) : R := sqrt (0.587 * (1.32 + x_R * x_R)).
(** induction/self_similar.py:146-148: (1 / cosh (sqrt 2 * r / r_half)) ** (8/9) *)
Definition ss_rad (r_half r_R : R) : R := Rpower (1 / cosh (sqrt 2 * r_R / r_half)) (8 / 9).
(** induction/self_similar.py:136-148,219 and 239: one blockage value *)
Definition ss_block (ct2a : R -> R) (gamma ct x_R r_R : R) : R := ct2a (gamma * ct) * ss_mu x_R * ss_rad (ss_r_half x_R) r_R.
(** induction/self_similar.py:210-252 *)
Definition self_similar (ct2a : R -> R) (gamma : R) (pre : bool) (R0 ct wx wy wz : R) : R :=
  let x_R := round12 (wx / R0) in
  let r_R := sqrt (wy * wy + wz * wz) / R0 in
  block_delta pre ct x_R (Rltb 1 r_R) (ss_block ct2a gamma ct x_R r_R) (ss_block ct2a gamma ct (- x_R) r_R).

(** induction/self_similar2020.py:33-54: the thrust factor, blended between near and far field *)
Definition ss20_gamma (ct x_R : R) : R :=
  let x_new := Rmin (Rmax (-1 * Rabs x_R) (-6)) (-1) in
  let c := (ss_mu x_new - ss_mu (-1)) / (ss_mu (-6) - ss_mu (-1)) in
  let far_gamma := -0.06489 * sin ((ct - 0.4911) / 0.1577) + 1.116 in
  let near_gamma := -1.381 * (ct * ct * ct) + 2.627 * (ct * ct) + -1.524 * ct + 1.336 in
  c * far_gamma + (1 - c) * near_gamma.
(** induction/self_similar2020.py:56-58 *)
Definition ss20_r_half (x_R : R) : R := -0.672 * x_R + 0.4897.
(** induction/self_similar2020.py:33-58 with self_similar.py:138-148 *)
Definition ss20_block (ct2a : R -> R) (ct x_R r_R : R) : R := ct2a (ss20_gamma ct x_R * ct) * ss_mu x_R * ss_rad (ss20_r_half x_R) r_R.
(** induction/self_similar.py:210-252 as inherited by self_similar2020.py:5 *)
Definition self_similar2020 (ct2a : R -> R) (pre : bool) (R0 ct wx wy wz : R) : R :=
  let x_R := round12 (wx / R0) in
  let r_R := sqrt (wy * wy + wz * wz) / R0 in
  block_delta pre ct x_R (Rltb 1 r_R) (ss20_block ct2a ct x_R r_R) (ss20_block ct2a ct (- x_R) r_R).

(** induction/rathmann.py:187-196 *)
Definition rath_G (x_R r_R : R) : R :=
  let sin_2_alpha := 2 * x_R / sqrt ((x_R * x_R + (r_R - 1) * (r_R - 1)) * (x_R * x_R + (r_R + 1) * (r_R + 1))) in
  let sin_alpha := sqrt (0.5 * (1 - sqrt (1 - sin_2_alpha * sin_2_alpha))) in
  let sin_beta := 1 / sqrt (x_R * x_R + r_R * r_R + 1) in
  sin_alpha * sin_beta * (1 + x_R * x_R).
(** induction/rathmann.py:203,224 *)
Definition rath_block (ct2a : R -> R) (ct x_R r_R : R) : R := ct2a ct * ss_mu x_R * rath_G x_R r_R.
(** induction/rathmann.py:179-236 *)
Definition rathmann (ct2a : R -> R) (pre : bool) (R0 ct wx wy wz : R) : R :=
  let x_R := round12 (wx / R0) in
  let r_R := sqrt (wy * wy + wz * wz) / R0 in
  block_delta pre ct x_R (Rltb 1 r_R) (rath_block ct2a ct x_R r_R) (rath_block ct2a ct (- x_R) r_R).

(** induction/rankine_half_body.py:184 *)
Definition rhb_m (ct2a : R -> R) (ws D ct : R) : R := 2 * ws * ct2a ct * (D / 2 * (D / 2)).
(** induction/rankine_half_body.py:190-195: cos and sin of theta = arctan2 (r, x); numpy gives theta = 0 for r = x = 0 *)
Definition rhb_shape (m ws x r : R) : R :=
  let r_sph := sqrt (r * r + x * x) in
  let cos_t := if Reqb r_sph 0 then 1 else x / r_sph in
  let sin_t := if Reqb r_sph 0 then 0 else r / r_sph in
  cos_t - 2 / (m + 1e-15) * ws * ((r_sph * sin_t) * (r_sph * sin_t)).
(** induction/rankine_half_body.py:198 *)
Definition rhb_xs (m ws : R) : R := - sqrt (m / (4 * ws + 1e-15)).
(** induction/rankine_half_body.py:183-220: the along-wind (U) and cross-wind (V) velocity contributions of one turbine to one point *)
Definition rankine (ct2a : R -> R) (ws D ct wx wy wz : R) : R * R :=
  let m := rhb_m ct2a ws D ct in
  let x := round12 wx in
  let r := sqrt (wy * wy + wz * wz) in
  let shape := rhb_shape m ws x r in
  let xs := rhb_xs m ws in
  let cube v := v * v * v in
  if Rltb 1e-8 ct && (Rltb shape (-1) || Rltb x xs) then
    let f := m / (4 * cube (sqrt (wx * wx + wy * wy + wz * wz))) in (f * wx, f * wy)
  else if Rltb 1e-8 ct && Rleb (-1) shape && Rleb xs x && Rleb x 0 then
    let f := m / (4 * cube (sqrt (xs * xs + 0 * 0 + 0 * 0))) in (f * xs, 0)
  else (0, 0).
