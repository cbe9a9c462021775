(** Vertical wind profiles (one array element). *)
From Verif Require Import RBase.
Local Open Scope R_scope.

(** foxes/constants.py KAPPA = 0.41 *)
Definition kappa : R := 0.41.
(** foxes/utils/abl/neutral.py:4-25 (also used by stable.py:5-25, unstable.py) *)
Definition logz (h z0 : R) : R := ln (Rmax h z0 / z0).
(** foxes/utils/abl/neutral.py:28-53 *)
Definition ustar_neutral (ws_ref h_ref z0 : R) : R := ws_ref * kappa / logz h_ref z0.
(** foxes/utils/abl/neutral.py:56-79 *)
Definition calc_neutral (h z0 us : R) : R := us / kappa * logz h z0.
(** foxes/utils/abl/stable.py:28-48 *)
Definition psi_stable (h mol : R) : R := -5 * Rmin h (Rabs mol) / mol.
(** foxes/utils/abl/unstable.py:6-31; 1 - 16 h/mol > 0 for h > 0, mol < 0 *)
Definition psi_x (x : R) : R := 2 * ln ((1 + x) / 2) + ln ((1 + x * x) / 2) - 2 * atan x + PI / 2.
(** foxes/utils/abl/unstable.py:6-31 *)
Definition unst_x (h mol : R) : R := Rpower (1 - 16 * h / mol) (1 / 4).
(** foxes/utils/abl/unstable.py:6-31 *)
Definition psi_unstable (h mol : R) : R := psi_x (unst_x h mol).
(** stable.py:51-77, unstable.py:34-60 with psi evaluated at h_ref *)
Definition ustar_psi (psi : R) (ws_ref h_ref z0 : R) : R := ws_ref * kappa / (logz h_ref z0 - psi).
(** stable.py:80-105, unstable.py:63-88 *)
Definition calc_psi (h z0 us psi : R) : R := us / kappa * (logz h z0 - psi).
(** foxes/models/vertical_profiles/abl_log_neutral_ws.py:53-79; abl_log_stable_ws.py:53-82; abl_log_unstable_ws.py:53-82:
    the friction velocity is an input or follows from the reference *)
Inductive ref_input := Ustar (us : R) | Wind (ws_ref h_ref : R).
(** foxes/models/vertical_profiles/abl_log_neutral_ws.py:53-79 *)
Definition neutral_ws (i : ref_input) (z0 h : R) : R :=
  calc_neutral h z0 (match i with Ustar us => us | Wind w hr => ustar_neutral w hr z0 end).
(** foxes/models/vertical_profiles/abl_log_stable_ws.py:53-82 *)
Definition stable_ws (i : ref_input) (z0 mol h : R) : R :=
  calc_psi h z0 (match i with Ustar us => us | Wind w hr => ustar_psi (psi_stable hr mol) w hr z0 end) (psi_stable h mol).
(** foxes/models/vertical_profiles/abl_log_unstable_ws.py:53-82 *)
Definition unstable_ws (i : ref_input) (z0 mol h : R) : R :=
  calc_psi h z0 (match i with Ustar us => us | Wind w hr => ustar_psi (psi_unstable hr mol) w hr z0 end) (psi_unstable h mol).
(** foxes/models/vertical_profiles/abl_log_ws.py:58-131, one element: three masked assignments; mol = None is NaN *)
Definition abl_ws (i : ref_input) (z0 : R) (mol : option R) (h : R) : R :=
  match mol with
  | None => neutral_ws i z0 h
  | Some m => if Reqb m 0 then neutral_ws i z0 h else if Rltb 0 m then stable_ws i z0 m h else unstable_ws i z0 m h
  end.
(** foxes/utils/abl/sheared.py:1-24, foxes/models/vertical_profiles/sheared_ws.py:29-60, for positive heights *)
Definition sheared_ws (ws0 h0 shear h : R) : R := ws0 * Rpower (h / h0) shear.
