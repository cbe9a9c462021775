(** Axial induction, Jensen and Gaussian (Bastankhah 2014) wind deficits, cubic roots. One array element
    unless stated otherwise. *)
From Verif Require Import RBase.
Local Open Scope R_scope.

(** foxes/models/axial_induction/betz.py:33-48 *)
Definition betz (ct_max ct : R) : R := 0.5 * (1 - sqrt (1 - Rmin ct ct_max)).
(** foxes/models/axial_induction/betz.py:20: default ct_max *)
Definition betz_default : R -> R := betz 0.99999.
(** foxes/models/axial_induction/madsen.py:48-63 with the default constants of line 29 *)
Definition madsen (ct : R) : R := 0.2460 * ct + 0.0586 * (ct * ct) + 0.0883 * (ct * ct * ct).

(** foxes/models/wake_models/wind/jensen.py:103 *)
Definition jensen_radius (D k x : R) : R := D / 2 + k * x.
(** foxes/models/wake_models/wind/jensen.py:150-167 *)
Definition jensen_centreline (ct2a : R -> R) (D wake_r ct : R) : R :=
  - ((D / 2 / wake_r) * (D / 2 / wake_r)) * (2 * ct2a ct).
(** foxes/models/wake_models/top_hat.py:198-227 calc_wakes_x_r for one point: st_sel and isin masks, zero otherwise *)
Definition jensen_deficit (ct2a : R -> R) (D k ct x r : R) : R :=
  let wr := jensen_radius D k x in
  if Rltb 1e-8 x && Rltb 1e-8 ct && Rltb r wr then jensen_centreline ct2a D wr ct else 0.

(** foxes/models/wake_models/wind/bastankhah14.py:176-180 *)
Definition gauss_sigma (ct2a : R -> R) (sbeta D k ct x : R) : R :=
  let a := ct2a ct in
  let beta := (1 - a) / (1 - 2 * a) in
  k * x + sbeta * sqrt beta * D.
(** foxes/models/wake_models/wind/bastankhah14.py:183-185 *)
Definition gauss_ampl (ct2a : R -> R) (D ct sigma : R) : R :=
  let ct_eff := ct / (8 * ((sigma / D) * (sigma / D))) in
  Rmax (-2 * ct2a ct_eff) (-1).
(** foxes/models/wake_models/gaussian.py:97-106 for one point; zero where not selected (bastankhah14.py:146) *)
Definition gauss_deficit (ct2a : R -> R) (sbeta D k ct x r : R) : R :=
  if Rltb 1e-8 x && Rltb 1e-8 ct then
    let sigma := gauss_sigma ct2a sbeta D k ct x in
    gauss_ampl ct2a D ct sigma * exp (- 0.5 * ((r / sigma) * (r / sigma)))
  else 0.
