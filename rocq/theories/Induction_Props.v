(** Theorems about axial induction, Jensen and Gaussian wind deficits. *)
From Verif Require Import RBase Induction_Model Induction_Spec Induction_Proofs.
Local Open Scope R_scope.

(** C35 *)
Theorem C35_below_half ct_max ct : ct_max < 1 -> betz ct_max ct < 1 / 2.
Proof. exact (betz_lt_half ct_max ct). Qed.
Print Assumptions C35_below_half.
Theorem C35_nonneg ct_max ct : 0 <= ct_max -> 0 <= ct -> 0 <= betz ct_max ct.
Proof. exact (betz_nonneg ct_max ct). Qed.
Print Assumptions C35_nonneg.
Theorem C35_monotone ct_max c c' : c <= c' -> betz ct_max c <= betz ct_max c'.
Proof. exact (betz_mono ct_max c c'). Qed.
Print Assumptions C35_monotone.
Theorem C35_inverts_thrust ct_max ct : ct_max <= 1 -> 4 * betz ct_max ct * (1 - betz ct_max ct) = Rmin ct ct_max.
Proof. exact (betz_inverts ct_max ct). Qed.
Print Assumptions C35_inverts_thrust.
(** the default cap, at the Betz optimum ct = 8/9: a = 1/3 *)
Example C35_nonvacuous : betz_default (8 / 9) = 1 / 3 /\ 0 <= 0.99999 < 1.
Proof.
  split; [|lra]. unfold betz_default, betz. rewrite Rmin_left by lra. replace (1 - 8 / 9) with (1 / 3 * (1 / 3)) by field.
  rewrite sqrt_square by lra. lra.
Qed.

(** C36, for every induction model that is physical on the used thrust range *)
Theorem C36_bounds ct2a D k ct x r : physical ct2a ct -> 0 < D -> 0 <= k -> -1 <= jensen_deficit ct2a D k ct x r <= 0.
Proof. exact (jensen_bounds ct2a D k ct x r). Qed.
Print Assumptions C36_bounds.
Theorem C36_zero ct2a D k ct x r : x <= 1e-8 \/ ct <= 1e-8 \/ D / 2 + k * x <= r -> jensen_deficit ct2a D k ct x r = 0.
Proof. exact (jensen_zero ct2a D k ct x r). Qed.
Print Assumptions C36_zero.
Theorem C36_recovers ct2a D k ct x x' : physical ct2a ct -> 0 < D -> 0 <= k -> 1e-8 < ct -> 1e-8 < x <= x' ->
  Rabs (jensen_deficit ct2a D k ct x' 0) <= Rabs (jensen_deficit ct2a D k ct x 0).
Proof. exact (jensen_recovers ct2a D k ct x x'). Qed.
Print Assumptions C36_recovers.
(** the classical formula inside the wake *)
Theorem C36_formula ct2a D k ct x r : 1e-8 < x -> 1e-8 < ct -> r < D / 2 + k * x ->
  jensen_deficit ct2a D k ct x r = - 2 * ct2a ct * ((D / 2) / (D / 2 + k * x) * ((D / 2) / (D / 2 + k * x))).
Proof. exact (jensen_formula ct2a D k ct x r). Qed.
Print Assumptions C36_formula.
(** both induction models of foxes are physical: Betz for every thrust, Madsen up to ct = 1 *)
Theorem C36_betz_physical ct_max top : 0 <= ct_max < 1 -> physical (betz ct_max) top.
Proof. exact (betz_physical ct_max top). Qed.
Print Assumptions C36_betz_physical.
Theorem C36_madsen_physical top : top <= 1 -> physical madsen top.
Proof. exact (madsen_physical top). Qed.
Print Assumptions C36_madsen_physical.
(** D = 100, k = 0.05, x = 1000: wake radius doubled, a = 1/3: deficit - 2/3 / 4 = -1/6 *)
Example C36_nonvacuous : jensen_deficit betz_default 100 0.05 (8 / 9) 1000 0 = - (1 / 6).
Proof.
  rewrite jensen_formula by lra. rewrite (proj1 C35_nonvacuous). replace (100 / 2 + 0.05 * 1000) with 100 by lra. field.
Qed.

(** C37 *)
Theorem C37_bounds ct2a sbeta D k ct x r : physical ct2a ct -> 0 < D -> 0 <= k -> 0 < sbeta ->
  -1 <= gauss_deficit ct2a sbeta D k ct x r <= 0.
Proof. exact (gauss_bounds ct2a sbeta D k ct x r). Qed.
Print Assumptions C37_bounds.
Theorem C37_decays_radially ct2a sbeta D k ct x r r' : physical ct2a ct -> 0 < D -> 0 <= k -> 0 < sbeta -> 0 <= r <= r' ->
  gauss_deficit ct2a sbeta D k ct x r <= gauss_deficit ct2a sbeta D k ct x r'.
Proof. exact (gauss_radial ct2a sbeta D k ct x r r'). Qed.
Print Assumptions C37_decays_radially.
Theorem C37_recovers_on_axis ct2a sbeta D k ct x x' : physical ct2a ct -> 0 < D -> 0 <= k -> 0 < sbeta -> 1e-8 < ct -> 1e-8 < x <= x' ->
  gauss_deficit ct2a sbeta D k ct x 0 <= gauss_deficit ct2a sbeta D k ct x' 0.
Proof. exact (gauss_recovers ct2a sbeta D k ct x x'). Qed.
Print Assumptions C37_recovers_on_axis.
Theorem C37_zero ct2a sbeta D k ct x r : x <= 1e-8 \/ ct <= 1e-8 -> gauss_deficit ct2a sbeta D k ct x r = 0.
Proof. exact (gauss_zero ct2a sbeta D k ct x r). Qed.
Print Assumptions C37_zero.
Theorem C37_strictly_negative_inside ct2a sbeta D k ct x r : physical ct2a ct -> (forall c, 0 < c -> 0 < ct2a c) ->
  0 < D -> 0 <= k -> 0 < sbeta -> 1e-8 < ct -> 1e-8 < x -> gauss_deficit ct2a sbeta D k ct x r < 0.
Proof. exact (gauss_neg ct2a sbeta D k ct x r). Qed.
Print Assumptions C37_strictly_negative_inside.
Example C37_nonvacuous : physical betz_default (8 / 9) /\ gauss_deficit betz_default 0.2 100 0.05 (8 / 9) 500 10 < 0.
Proof.
  split; [apply betz_physical; lra|]. apply gauss_neg; try lra; [apply betz_physical; lra|]. intros c Hc. apply betz_pos; lra.
Qed.
