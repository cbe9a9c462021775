(** Theorems about wake-added turbulence and the TurbOPark wake. *)
From Coq Require Import Rpower.
From Coquelicot Require Import Coquelicot.
From Verif Require Import RBase Induction_Model Induction_Spec Induction_Proofs Yaw_Spec TiWake_Model TiWake_Spec TiWake_Proofs.
Local Open Scope R_scope.

(** C108: IEC / Frandsen *)
Theorem C108_bounds ty o D ws ct x r : 0 < D -> 0 <= ws -> 0 <= iec_ti ty o D ws ct x r <= 2 / 3.
Proof. exact (iec_bounds ty o D ws ct x r). Qed.
Print Assumptions C108_bounds.
Theorem C108_zero_outside ty o D ws ct x r : x <= 1e-8 \/ ct <= 1e-8 \/ iec_radius o D x <= r -> iec_ti ty o D ws ct x r = 0.
Proof. exact (top_hat_out (iec_radius o D x) (iec_centreline ty D ws ct x) ct x r). Qed.
Print Assumptions C108_zero_outside.
Theorem C108_positive_inside ty o D ws ct x r : 0 < D -> 0 <= ws -> 1e-8 < x -> 1e-8 < ct -> r < iec_radius o D x -> 0 < iec_ti ty o D ws ct x r.
Proof. exact (iec_inside ty o D ws ct x r). Qed.
Print Assumptions C108_positive_inside.
Theorem C108_decays ty o D ws ct x x' r : 0 < D -> 0 < ws -> 1e-8 < x < x' -> 1e-8 < ct -> r < iec_radius o D x -> r < iec_radius o D x' ->
  iec_ti ty o D ws ct x' r < iec_ti ty o D ws ct x r.
Proof. exact (iec_decays ty o D ws ct x x' r). Qed.
Print Assumptions C108_decays.
Theorem C108_grows_with_thrust o D ws ct ct' x r : 0 < D -> 1e-8 < x -> 1e-8 < ct < ct' -> r < iec_radius o D x ->
  iec_ti Iec2019 o D ws ct x r < iec_ti Iec2019 o D ws ct' x r.
Proof. exact (iec_grows_with_ct o D ws ct ct' x r). Qed.
Print Assumptions C108_grows_with_thrust.
(** where the added turbulence lives: with an opening angle, the points seen from the rotor centre at less than half that angle off the
    axis; with an expansion rate k, the points closer to the axis than D / 2 + k x *)
Theorem C108_opening_angle ty deg D ws ct x r : 0 < D -> 0 <= ws -> 1e-8 < x -> 1e-8 < ct -> 0 < deg < 180 ->
  (0 < iec_ti ty (cone_of_angle deg) D ws ct x r <-> atan (r / x) * 180 / PI < deg / 2).
Proof. exact (iec_cone_iff ty deg D ws ct x r). Qed.
Print Assumptions C108_opening_angle.
Theorem C108_linear_radius ty k D ws ct x r : 0 < D -> 0 <= ws -> 1e-8 < x -> 1e-8 < ct ->
  (0 < iec_ti ty (Linear k) D ws ct x r <-> r < D / 2 + k * x).
Proof. exact (iec_linear_iff ty k D ws ct x r). Qed.
Print Assumptions C108_linear_radius.
(** five diameters behind a rotor with ct = 0.64: 1 / (1.5 + 0.8 * 5 / 0.8) = 2 / 13, inside the wake, and 0 outside *)
Example C108_nonvacuous : iec_ti Iec2019 (Linear 0.05) 100 10 0.64 500 40 = 2 / 13 /\ iec_ti Iec2019 (Linear 0.05) 100 10 0.64 500 80 = 0.
Proof.
  split.
  - unfold iec_ti. rewrite top_hat_in by (cbn [iec_radius]; lra). cbn [iec_centreline].
    replace 0.64 with (0.8 * 0.8) by lra. rewrite sqrt_square by lra. replace (0.8 * 500 / 100 / 0.8) with 5 by lra. lra.
  - unfold iec_ti. apply top_hat_out. cbn [iec_radius]. lra.
Qed.

(** C109: Crespo-Hernandez *)
Theorem C109_bounds p ct2a D k ti ct x r : ch_ok p -> ch_near p = None -> 0 < D -> (forall c, 0 < c -> 0 < ct2a c < 1 / 2) ->
  0 <= crespo_ti p ct2a D k ti ct x r <= ch_a_near p.
Proof. exact (crespo_ti_bounds p ct2a D k ti ct x r). Qed.
Print Assumptions C109_bounds.
Theorem C109_continuous p ct2a D ti ct x : ch_ok p -> ch_near p = None -> 0 < D -> 0 < ct2a ct -> 0 < x -> continuous (crespo_centreline p ct2a D ti ct) x.
Proof. exact (crespo_cont p ct2a D ti ct x). Qed.
Print Assumptions C109_continuous.
Theorem C109_decays p ct2a D k ti ct x x' r : ch_ok p -> ch_near p = None -> 0 < D -> 0 <= k -> 0 < ct2a ct -> 1e-8 < ct -> 1e-8 < x <= x' ->
  r < crespo_radius p ct2a D k ct x -> 0 < crespo_ti p ct2a D k ti ct x' r <= crespo_ti p ct2a D k ti ct x r.
Proof. exact (crespo_ti_mono p ct2a D k ti ct x x' r). Qed.
Print Assumptions C109_decays.
Theorem C109_zero_outside p ct2a D k ti ct x r : x <= 1e-8 \/ ct <= 1e-8 \/ crespo_radius p ct2a D k ct x <= r -> crespo_ti p ct2a D k ti ct x r = 0.
Proof. exact (top_hat_out (crespo_radius p ct2a D k ct x) (crespo_centreline p ct2a D ti ct x) ct x r). Qed.
Print Assumptions C109_zero_outside.
(** ... and positive exactly within the wake radius, twice the width of the Gaussian wake with the same growth rate *)
Theorem C109_wake_radius p ct2a D k ti ct x r : ch_ok p -> ch_near p = None -> 0 < D -> 0 < ct2a ct -> 1e-8 < x -> 1e-8 < ct ->
  (0 < crespo_ti p ct2a D k ti ct x r <-> r < 2 * (k * x + ch_sbeta p * sqrt ((1 - ct2a ct) / (1 - 2 * ct2a ct)) * D)).
Proof. exact (crespo_pos_iff p ct2a D k ti ct x r). Qed.
Print Assumptions C109_wake_radius.
(** a user-given near wake length other than the computed one makes the added turbulence jump *)
Theorem C109_given_length_refuted p n ct2a D ti ct : ch_ok p -> ch_near p = Some n -> 0 < n -> n <> crespo_near_D (auto_near p) (2 * ct2a ct) ti -> 0 < D -> 0 < ct2a ct ->
  exists l r, l <> r /\ left_limit (crespo_centreline p ct2a D ti ct) (n * D) l /\ right_limit (crespo_centreline p ct2a D ti ct) (n * D) r.
Proof. exact (crespo_jump p n ct2a D ti ct). Qed.
Print Assumptions C109_given_length_refuted.
Example C109_nonvacuous : ch_ok crespo_default /\ ch_near crespo_default = None /\ (forall c, 0 < c -> 0 < betz_default c < 1 / 2) /\
  crespo_centreline crespo_default betz_default 100 0.1 (8 / 9) 0.0 = 0.362 * (2 / 3).
Proof.
  split; [exact ch_default_ok|]. split; [reflexivity|]. split.
  - intros c Hc. split; [apply betz_pos; lra|apply betz_lt_half; lra].
  - rewrite crespo_cl. rewrite (proj2 (Rltb_true _ _)).
    + replace (betz_default (8 / 9)) with (1 / 3); [cbn [ch_a_near crespo_default]; lra|]. unfold betz_default, betz. rewrite Rmin_left by lra.
      replace (1 - 8 / 9) with (1 / 3 * (1 / 3)) by field. rewrite sqrt_square by lra. lra.
    + pose proof (near_pos crespo_default (2 * betz_default (8 / 9)) 0.1 eq_refl). lra.
Qed.
(** some user-given lengths differ from the computed one: of two different lengths at least one does *)
Example C109_jump_nonvacuous ti t : 0 < ti -> 0 < t -> exists n, 0 < n /\ n <> crespo_near_D crespo_default t ti.
Proof. intros _ _. destruct (Req_dec 2 (crespo_near_D crespo_default t ti)) as [E|E]; [exists 3|exists 2]; lra. Qed.

(** C110: TurbOPark. The wake width starts at the initial width and grows with the total turbulence intensity: ambient and the
    Frandsen wake-added one (the formula of C108 for c1 = 1.5, c2 = 0.8) added in squares *)
Theorem C110_initial_width ct2a sbeta c1 c2 D k ati ct : 0 < D -> 0 < c1 -> 0 < c2 -> 0 < ati -> 0 < ct ->
  turbo_sigma ct2a sbeta c1 c2 D k ati ct 0 = sbeta * sqrt ((1 - ct2a ct) / (1 - 2 * ct2a ct)) * D.
Proof. exact (turbo_sigma_at_0 ct2a sbeta c1 c2 D k ati ct). Qed.
Print Assumptions C110_initial_width.
Theorem C110_expansion_law ct2a sbeta c1 c2 D k ati ct x : 0 < D -> 0 < c1 -> 0 < c2 -> 0 < ati -> 0 < ct -> 0 < x ->
  is_derive (turbo_sigma ct2a sbeta c1 c2 D k ati ct) x
    (k / ati * sqrt (ati * ati + (1 / (c1 + c2 * x / D / sqrt ct)) * (1 / (c1 + c2 * x / D / sqrt ct)))).
Proof. exact (turbo_sigma_derive ct2a sbeta c1 c2 D k ati ct x). Qed.
Print Assumptions C110_expansion_law.
Theorem C110_frandsen ct2a sbeta D ws k ati ct x : 0 < D -> 0 < ati -> 0 < ct -> 0 < x ->
  is_derive (turbo_sigma ct2a sbeta 1.5 0.8 D k ati ct) x
    (k / ati * sqrt (ati * ati + iec_centreline Iec2019 D ws ct x * iec_centreline Iec2019 D ws ct x)).
Proof. intros HD Ha Hc Hx. exact (turbo_sigma_derive ct2a sbeta 1.5 0.8 D k ati ct x HD ltac:(lra) ltac:(lra) Ha Hc Hx). Qed.
Print Assumptions C110_frandsen.
Theorem C110_widens ct2a sbeta c1 c2 D k ati ct x x' : 0 < D -> 0 < c1 -> 0 < c2 -> 0 < ati -> 0 < ct -> 0 <= k -> 0 <= x <= x' ->
  turbo_sigma ct2a sbeta c1 c2 D k ati ct x + k * (x' - x) <= turbo_sigma ct2a sbeta c1 c2 D k ati ct x'.
Proof. exact (turbo_sigma_growth ct2a sbeta c1 c2 D k ati ct x x'). Qed.
Print Assumptions C110_widens.
Theorem C110_bounds ct2a sbeta c1 c2 D k ati ct x r : physical ct2a ct -> 0 < D -> 0 < c1 -> 0 < c2 -> 0 < ati -> 0 <= k -> 0 < sbeta ->
  -1 <= turbo_deficit ct2a sbeta c1 c2 D k ati ct x r <= 0.
Proof. exact (turbo_bounds ct2a sbeta c1 c2 D k ati ct x r). Qed.
Print Assumptions C110_bounds.
Theorem C110_zero ct2a sbeta c1 c2 D k ati ct x r : x <= 1e-8 \/ ct <= 1e-8 -> turbo_deficit ct2a sbeta c1 c2 D k ati ct x r = 0.
Proof. exact (turbo_zero ct2a sbeta c1 c2 D k ati ct x r). Qed.
Print Assumptions C110_zero.
Theorem C110_recovers ct2a sbeta c1 c2 D k ati ct x x' : physical ct2a ct -> 0 < D -> 0 < c1 -> 0 < c2 -> 0 < ati -> 0 <= k -> 0 < sbeta -> 1e-8 < ct -> 1e-8 < x <= x' ->
  turbo_deficit ct2a sbeta c1 c2 D k ati ct x 0 <= turbo_deficit ct2a sbeta c1 c2 D k ati ct x' 0.
Proof. exact (turbo_recovers ct2a sbeta c1 c2 D k ati ct x x'). Qed.
Print Assumptions C110_recovers.
Theorem C110_not_deeper_than_gaussian ct2a sbeta c1 c2 D k ati ct x : physical ct2a ct -> 0 < D -> 0 < c1 -> 0 < c2 -> 0 < ati -> 0 <= k -> 0 < sbeta ->
  gauss_deficit ct2a sbeta D k ct x 0 <= turbo_deficit ct2a sbeta c1 c2 D k ati ct x 0.
Proof. exact (turbo_vs_gauss ct2a sbeta c1 c2 D k ati ct x). Qed.
Print Assumptions C110_not_deeper_than_gaussian.
(** defaults of turbopark.py: the hypotheses hold, and the wake widens from 0.25 sqrt 2 D *)
Example C110_nonvacuous : physical madsen 0.8 /\ turbo_sigma (betz 0.99999) 0.25 1.5 0.8 100 0.004 0.1 (8 / 9) 0 = 25 * sqrt 2 /\
  turbo_sigma (betz 0.99999) 0.25 1.5 0.8 100 0.004 0.1 (8 / 9) 0 < turbo_sigma (betz 0.99999) 0.25 1.5 0.8 100 0.004 0.1 (8 / 9) 500.
Proof.
  split; [apply madsen_physical; lra|]. split.
  - rewrite turbo_sigma_at_0 by lra. replace (betz 0.99999 (8 / 9)) with (1 / 3).
    + replace ((1 - 1 / 3) / (1 - 2 * (1 / 3))) with 2 by field. lra.
    + unfold betz. rewrite Rmin_left by lra. replace (1 - 8 / 9) with (1 / 3 * (1 / 3)) by field. rewrite sqrt_square by lra. lra.
  - pose proof (turbo_sigma_growth (betz 0.99999) 0.25 1.5 0.8 100 0.004 0.1 (8 / 9) 0 500 ltac:(lra) ltac:(lra) ltac:(lra) ltac:(lra) ltac:(lra) ltac:(lra) ltac:(lra)). lra.
Qed.
