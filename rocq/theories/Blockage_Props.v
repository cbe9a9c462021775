(** Theorems about the blockage (induction) models. *)
From Coq Require Import Rpower.
From Verif Require Import RBase Induction_Model Induction_Spec Induction_Proofs Blockage_Model Blockage_Proofs.
Local Open Scope R_scope.

(** C112: vortex sheet *)
Theorem C112_bounded ct2a pre D ct wx wy wz : (forall c, 0 <= c -> 0 <= ct2a c) -> 0 < D -> 0 <= ct -> Rabs (vortex_sheet ct2a pre D ct wx wy wz) <= ct2a ct.
Proof. exact (vs_bounds ct2a pre D ct wx wy wz). Qed.
Print Assumptions C112_bounded.
Theorem C112_slows_upstream ct2a pre D ct wx wy wz : (forall c, 0 <= c -> 0 <= ct2a c) -> 0 < D -> 0 <= ct -> wx <= 0 -> vortex_sheet ct2a pre D ct wx wy wz <= 0.
Proof. exact (vs_sign_front ct2a pre D ct wx wy wz). Qed.
Print Assumptions C112_slows_upstream.
Theorem C112_grows_towards_rotor ct2a pre D ct wx wx' wy wz : (forall c, 0 <= c -> 0 <= ct2a c) -> 0 < D -> 0 <= ct -> wx <= wx' <= 0 ->
  vortex_sheet ct2a pre D ct wx' wy wz <= vortex_sheet ct2a pre D ct wx wy wz.
Proof. exact (vs_grows ct2a pre D ct wx wx' wy wz). Qed.
Print Assumptions C112_grows_towards_rotor.
Theorem C112_mirrored ct2a D ct wx wy wz : 0 < round12 wx -> D / 2 < sqrt (wy * wy + wz * wz) ->
  vortex_sheet ct2a false D ct wx wy wz = - vortex_sheet ct2a false D ct (- wx) wy wz.
Proof. exact (vs_mirror ct2a D ct wx wy wz). Qed.
Print Assumptions C112_mirrored.
Theorem C112_nothing_behind ct2a pre D ct wx wy wz : 0 < round12 wx -> sqrt (wy * wy + wz * wz) <= D / 2 \/ pre = true -> vortex_sheet ct2a pre D ct wx wy wz = 0.
Proof. exact (vs_behind ct2a pre D ct wx wy wz). Qed.
Print Assumptions C112_nothing_behind.
Theorem C112_far_decay ct2a pre D ct wx wy wz : (forall c, 0 <= c -> 0 <= ct2a c) -> 0 < D -> 0 <= ct ->
  let rho := sqrt (wy * wy + wz * wz + round12 wx * round12 wx) in
  0 < rho -> Rabs (vortex_sheet ct2a pre D ct wx wy wz) <= ct2a ct * ((D / 2 / rho) * (D / 2 / rho)) / 2.
Proof. exact (vs_far ct2a pre D ct wx wy wz). Qed.
Print Assumptions C112_far_decay.
Theorem C112_at_rotor_centre ct2a pre D ct : 1e-8 < ct -> vortex_sheet ct2a pre D ct 0 0 0 = - ct2a ct.
Proof. exact (vs_centre ct2a pre D ct). Qed.
Print Assumptions C112_at_rotor_centre.
(** the rounding of the along-wind coordinate is below a picometre *)
Theorem C112_rounding x : Rabs (x - round12 x) <= 5e-13.
Proof. exact (round12_err x). Qed.
Print Assumptions C112_rounding.
Example C112_nonvacuous : vortex_sheet betz_default false 100 (8 / 9) 0 0 0 = - (1 / 3) /\ 0 < round12 200 /\ 100 / 2 < sqrt (60 * 60 + 0 * 0).
Proof.
  split; [|split].
  - rewrite vs_centre by lra. f_equal. unfold betz_default, betz. rewrite Rmin_left by lra. replace (1 - 8 / 9) with (1 / 3 * (1 / 3)) by field. rewrite sqrt_square by lra. lra.
  - rewrite (round12_int 200). lra.
  - replace (60 * 60 + 0 * 0) with (60 * 60) by ring. rewrite sqrt_square; lra.
Qed.

(** C113: self similar and self similar 2020 *)
Theorem C113_bounded ct2a gamma pre R0 ct wx wy wz : (forall c, 0 <= c -> 0 <= ct2a c) -> 0 <= gamma * ct ->
  Rabs (self_similar ct2a gamma pre R0 ct wx wy wz) <= ct2a (gamma * ct).
Proof. exact (ss_bounds ct2a gamma pre R0 ct wx wy wz). Qed.
Print Assumptions C113_bounded.
Theorem C113_radial_decay ct2a gamma pre R0 ct wx wy wz wy' wz' : (forall c, 0 <= c -> 0 <= ct2a c) -> 0 < R0 -> 0 <= gamma * ct -> wx <= 0 -> wy * wy + wz * wz <= wy' * wy' + wz' * wz' ->
  self_similar ct2a gamma pre R0 ct wx wy wz <= self_similar ct2a gamma pre R0 ct wx wy' wz' <= 0.
Proof. exact (ss_radial ct2a gamma pre R0 ct wx wy wz wy' wz'). Qed.
Print Assumptions C113_radial_decay.
Theorem C113_axis_growth ct2a gamma pre R0 ct wx wx' : (forall c, 0 <= c -> 0 <= ct2a c) -> 0 < R0 -> 0 <= gamma * ct -> wx <= wx' <= 0 ->
  self_similar ct2a gamma pre R0 ct wx' 0 0 <= self_similar ct2a gamma pre R0 ct wx 0 0.
Proof. exact (ss_axis_grows ct2a gamma pre R0 ct wx wx'). Qed.
Print Assumptions C113_axis_growth.
Theorem C113_mirrored ct2a gamma R0 ct wx wy wz : 0 < round12 (wx / R0) -> 1 < sqrt (wy * wy + wz * wz) / R0 ->
  self_similar ct2a gamma false R0 ct wx wy wz = - self_similar ct2a gamma false R0 ct (- wx) wy wz.
Proof. exact (ss_mirror ct2a gamma R0 ct wx wy wz). Qed.
Print Assumptions C113_mirrored.
Theorem C113_nothing_behind ct2a gamma pre R0 ct wx wy wz : 0 < round12 (wx / R0) -> sqrt (wy * wy + wz * wz) / R0 <= 1 \/ pre = true -> self_similar ct2a gamma pre R0 ct wx wy wz = 0.
Proof. exact (ss_behind ct2a gamma pre R0 ct wx wy wz). Qed.
Print Assumptions C113_nothing_behind.
Theorem C113_centre ct2a gamma pre R0 ct : 1e-8 < ct -> self_similar ct2a gamma pre R0 ct 0 0 0 = - ct2a (gamma * ct).
Proof. exact (ss_centre ct2a gamma pre R0 ct). Qed.
Print Assumptions C113_centre.
Theorem C113_2020_bounded ct2a pre R0 ct wx wy wz : (forall c, 0 <= c -> 0 <= ct2a c < 1 / 2) -> 0 <= ct <= 1 -> Rabs (self_similar2020 ct2a pre R0 ct wx wy wz) < 1 / 2.
Proof. exact (ss20_bounds ct2a pre R0 ct wx wy wz). Qed.
Print Assumptions C113_2020_bounded.
Theorem C113_2020_radial_decay ct2a pre R0 ct wx wy wz wy' wz' : (forall c, 0 <= c -> 0 <= ct2a c < 1 / 2) -> 0 < R0 -> 0 <= ct <= 1 -> wx <= 0 -> wy * wy + wz * wz <= wy' * wy' + wz' * wz' ->
  self_similar2020 ct2a pre R0 ct wx wy wz <= self_similar2020 ct2a pre R0 ct wx wy' wz' <= 0.
Proof. exact (ss20_radial ct2a pre R0 ct wx wy wz wy' wz'). Qed.
Print Assumptions C113_2020_radial_decay.
Theorem C113_2020_thrust_factor ct x : 0 <= ct <= 1 -> 1 <= ss20_gamma ct x <= 1.4.
Proof. exact (ss20_gamma_bounds ct x). Qed.
Print Assumptions C113_2020_thrust_factor.
Theorem C113_2020_mirrored ct2a R0 ct wx wy wz : 0 < round12 (wx / R0) -> 1 < sqrt (wy * wy + wz * wz) / R0 ->
  self_similar2020 ct2a false R0 ct wx wy wz = - self_similar2020 ct2a false R0 ct (- wx) wy wz.
Proof. exact (ss20_mirror ct2a R0 ct wx wy wz). Qed.
Print Assumptions C113_2020_mirrored.
Theorem C113_2020_nothing_behind ct2a pre R0 ct wx wy wz : 0 < round12 (wx / R0) -> sqrt (wy * wy + wz * wz) / R0 <= 1 \/ pre = true -> self_similar2020 ct2a pre R0 ct wx wy wz = 0.
Proof. exact (ss20_behind ct2a pre R0 ct wx wy wz). Qed.
Print Assumptions C113_2020_nothing_behind.
Example C113_nonvacuous : (forall c, 0 <= c -> 0 <= betz_default c < 1 / 2) /\ 0 < round12 (100 / 50) /\ 1 < sqrt (60 * 60 + 0 * 0) / 50.
Proof.
  split; [|split].
  - intros c Hc. split; [apply betz_nonneg; lra|apply betz_lt_half; lra].
  - replace (100 / 50) with 2 by lra. rewrite (round12_int 2). lra.
  - replace (60 * 60 + 0 * 0) with (60 * 60) by ring. rewrite sqrt_square; lra.
Qed.

(** C114: Rathmann *)
Theorem C114_bounded ct2a pre R0 ct wx wy wz : (forall c, 0 <= c -> 0 <= ct2a c) -> 0 <= ct -> 0 < R0 ->
  round12 (wx / R0) <> 0 \/ sqrt (wy * wy + wz * wz) <> R0 -> Rabs (rathmann ct2a pre R0 ct wx wy wz) <= ct2a ct / sqrt 2.
Proof. exact (rath_bounds ct2a pre R0 ct wx wy wz). Qed.
Print Assumptions C114_bounded.
Theorem C114_mirrored ct2a R0 ct wx wy wz : 0 < round12 (wx / R0) -> 1 < sqrt (wy * wy + wz * wz) / R0 ->
  rathmann ct2a false R0 ct wx wy wz = - rathmann ct2a false R0 ct (- wx) wy wz.
Proof. exact (rath_mirror ct2a R0 ct wx wy wz). Qed.
Print Assumptions C114_mirrored.
(** what the code computes on the axis: the factor that should be one falls linearly to zero within one radius of the rotor *)
Theorem C114_on_axis ct2a pre R0 ct wx : 1e-8 < ct -> 0 < R0 -> wx <= 0 ->
  rathmann ct2a pre R0 ct wx 0 0 = - (ct2a ct * (1 + round12 (wx / R0) / sqrt (1 + round12 (wx / R0) * round12 (wx / R0))) * Rmin 1 (Rabs (round12 (wx / R0)))).
Proof. exact (rath_axis ct2a pre R0 ct wx). Qed.
Print Assumptions C114_on_axis.
(** hence the blockage does not grow towards the rotor: it vanishes at the rotor centre but not one radius upstream *)
Theorem C114_growth_refuted ct2a pre R0 ct : 1e-8 < ct -> 0 < R0 -> 0 < ct2a ct ->
  rathmann ct2a pre R0 ct 0 0 0 = 0 /\ rathmann ct2a pre R0 ct (- R0) 0 0 < 0.
Proof.
  intros Hc HR Ha. rewrite !rath_axis by lra. replace (0 / R0) with 0 by (unfold Rdiv; ring). replace (- R0 / R0) with (IZR (-1)) by (field; lra).
  rewrite round12_0, round12_int. split.
  - rewrite Rabs_R0. rewrite Rmin_right by lra. ring.
  - rewrite Rabs_left by lra. rewrite Rmin_left by lra. pose proof (mu_bounds (-1) ltac:(lra)). nra.
Qed.
Print Assumptions C114_growth_refuted.
(** upstream of one radius the growth claim holds *)
Theorem C114_growth_partial ct2a pre R0 ct wx wx' : 1e-8 < ct -> 0 < R0 -> 0 <= ct2a ct -> wx <= wx' <= - R0 ->
  rathmann ct2a pre R0 ct wx' 0 0 <= rathmann ct2a pre R0 ct wx 0 0.
Proof.
  intros Hc HR Ha Hx. rewrite !rath_axis by lra. assert (L' : wx' / R0 <= IZR (-1)). { apply (Rmult_le_reg_r R0); [exact HR|]. unfold Rdiv. rewrite Rmult_assoc, Rinv_l by lra. lra. }
  assert (L : wx / R0 <= wx' / R0) by (apply div_mono; lra). pose proof (round12_le _ _ L') as Q'. pose proof (round12_le _ _ L) as Q. rewrite round12_int in Q'.
  set (y := round12 (wx / R0)) in *. set (y' := round12 (wx' / R0)) in *. rewrite !Rabs_left by lra. rewrite !Rmin_left by lra. rewrite !Rmult_1_r.
  apply Ropp_le_contravar, Rmult_le_compat_l; [exact Ha|]. apply mu_mono. lra.
Qed.
Print Assumptions C114_growth_partial.
Example C114_nonvacuous : 0 < betz_default 0.8 /\ rathmann betz_default false 50 0.8 0 0 0 = 0.
Proof. split; [apply betz_pos; lra|]. apply (C114_growth_refuted betz_default false 50 0.8); [lra|lra|apply betz_pos; lra]. Qed.

(** C115: Rankine half body. The velocity induced by one turbine never exceeds its wind speed (up to the code's own 1e-15 offset, and a relative 1e-7 for the
    rounding of the downwind coordinate to 12 decimals), so the flow is never reversed. [ct2a]: any induction model with a >= 0.24 ct (Betz and Madsen) *)
Theorem C115_speed ct2a ws D ct wx wy wz : 1e-15 <= ws -> 1 <= D -> (1e-8 < ct -> 2.4e-9 <= ct2a ct) ->
  let uv := rankine ct2a ws D ct wx wy wz in let b := (ws + 2.5e-16) * (1 + 1e-7) in fst uv * fst uv + snd uv * snd uv <= b * b.
Proof. exact (rankine_speed_all ct2a ws D ct wx wy wz). Qed.
Print Assumptions C115_speed.
Theorem C115_no_reversal ct2a ws D ct wx wy wz : 1e-15 <= ws -> 1 <= D -> (1e-8 < ct -> 2.4e-9 <= ct2a ct) -> - ((ws + 2.5e-16) * (1 + 1e-7)) <= fst (rankine ct2a ws D ct wx wy wz).
Proof. exact (rankine_no_reverse_all ct2a ws D ct wx wy wz). Qed.
Print Assumptions C115_no_reversal.
(** without the relative error for positions with 12 decimals *)
Theorem C115_speed_12_decimals ct2a ws D ct wx wy wz : 0 < ws -> 0 < D -> 0 < ct2a ct -> round12 wx = wx ->
  let uv := rankine ct2a ws D ct wx wy wz in fst uv * fst uv + snd uv * snd uv <= (ws + 2.5e-16) * (ws + 2.5e-16).
Proof. exact (rankine_speed ct2a ws D ct wx wy wz). Qed.
Print Assumptions C115_speed_12_decimals.
Theorem C115_sign ct2a ws D ct wx wy wz : 0 < ws -> 0 < D -> 0 < ct2a ct ->
  (wx <= 0 -> fst (rankine ct2a ws D ct wx wy wz) <= 0) /\ (0 < round12 wx -> 0 <= wx -> 0 <= fst (rankine ct2a ws D ct wx wy wz)).
Proof. exact (rankine_sign ct2a ws D ct wx wy wz). Qed.
Print Assumptions C115_sign.
(** the rotor centre lies inside the body: full stagnation *)
Theorem C115_stagnation ct2a ws D ct : 0 < ws -> 0 < D -> 0 < ct2a ct -> 1e-8 < ct -> rankine ct2a ws D ct 0 0 0 = (- (ws + 2.5e-16), 0).
Proof. exact (rankine_rotor ct2a ws D ct). Qed.
Print Assumptions C115_stagnation.
(** the strength of the source: on the axis, more than a rotor radius upstream *)
Theorem C115_upstream_axis ct2a ws D ct wx : 0 < ws -> 1 <= D -> 0 < ct2a ct <= 1 -> 1e-8 < ct -> wx < - (D / 2) ->
  rankine ct2a ws D ct wx 0 0 = (- ws * ct2a ct / 2 * ((D / 2) * (D / 2) / (wx * wx)), 0).
Proof. exact (rankine_axis ct2a ws D ct wx). Qed.
Print Assumptions C115_upstream_axis.
Example C115_nonvacuous : (forall ct, 1e-8 < ct -> 2.4e-9 <= betz_default ct) /\ round12 (-300) = -300.
Proof.
  split; [|exact (round12_int (-300))]. intros ct H. unfold betz_default, betz.
  assert (M : 1e-8 < Rmin ct 0.99999 <= 0.99999) by (split; [apply Rmin_glb_lt; lra|apply Rmin_r]). set (c := Rmin ct 0.99999) in *.
  assert (Q : sqrt (1 - c) <= 1 - c / 2). { rewrite <- (sqrt_square (1 - c / 2)) by lra. apply sqrt_le_1_alt. nra. }
  lra.
Qed.
