(** Specification for C260: misaligned turbines. *)
From Verif Require Import RBase Superp_Model Superp_Spec Curves_Model Curves_Spec Symm_Model Whole_Model Whole_Spec Misal_Model.
Local Open Scope R_scope.

(** cosine of the misalignment *)
Definition cosm (t : turb mis) : R := cos (g_yawm (t_set t) * PI / 180).
(** cos ^ (p * e), without exponent no correction *)
Definition cos_power (t : turb mis) (p : option R) (e : R) : R := match p with Some p => Rpower (cosm t) (p * e) | None => 1 end.
(** reasonable turbines, misaligned by less than a quarter turn *)
Definition good_mis (farm : list (turb mis)) : Prop := forall t, In t farm -> good_type (g_type (t_set t)) /\ 0 < t_diam t /\ 0 < cosm t.
(** the wind speed that the superposed wakes of all turbines leave over at turbine t *)
Definition left_over (c : scene) (farm : list (turb mis)) (res : list tres) (t : turb mis) : R :=
  limited (c_low c) (c_high c) (c_wsp c + combination (c_s c) false (c_wsp c) (map (fun i => effect c (plain (nth i farm no_mis)) (nth i res no_res) (plain t)) (seq 0 (length farm)))).
(** Balance: turbine j has the effective wind speed (wind speed left over) * [proj j], the thrust at that wind speed times cos^(p_ct/2), the power at that wind speed times cos^(p_P/3). *)
Definition mis_balanced (c : scene) (farm : list (turb mis)) (proj : nat -> R) (res : list tres) : Prop :=
  length res = length farm /\
  forall j, (j < length farm)%nat -> let t := nth j farm no_mis in let f := nth j res no_res in let u := left_over c farm res t * proj j in
    r_ws f = u /\ interp (y_C (g_type (t_set t))) (u * cos_power t (g_pct (t_set t)) (1 / 2)) = Ok (r_ct f) /\ interp (y_P (g_type (t_set t))) (u * cos_power t (g_pP (t_set t)) (1 / 3)) = Ok (r_p f).
(** all but turbine i0 feel the wind along their rotor axis *)
Definition all_but (farm : list (turb mis)) (i0 j : nat) : R := if Nat.eqb j i0 then 1 else cosm (nth j farm no_mis).
(** turbine i0 stands behind no other turbine *)
Definition most_upstream (c : scene) (farm : list (turb mis)) (i0 : nat) : Prop :=
  (i0 < length farm)%nat /\ forall j, (j < length farm)%nat -> behind (c_wd c) (plain (nth j farm no_mis)) (plain (nth i0 farm no_mis)) <= 0.
