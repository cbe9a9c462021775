(** A complete farm calculation with misaligned turbines: turbine models [SetFarmVars with YAWM, yawm2yaw, turbine type of class PCtFile] (as in examples/yawed_wake/run.py:95), uniform wind, wake frame rotor_wd
    (no deflection of the wakes), centre rotor, centre partial wakes, deficit models and superpositions of Whole_Model. The variables of the turbine type are the defaults REWS2 and REWS3; no air density correction.
    The misalignments are less than 90 degrees (negative cosines give NaN for powers that are not integers, PCt_file.py:328-332). *)
From Verif Require Export RBase WindDir_Model Rotor_Model Superp_Model Curves_Model FarmWakes_Model AnyOrder_Model Symm_Model Whole_Model.
Local Open Scope R_scope.

(** settings of a turbine: curves and wake growth, the misalignment YAWM in degrees, the exponents p_ct and p_P of the turbine type; PCt_file.py:42-103 *)
Record mis := { g_type : ttype; g_yawm : R; g_pct : option R; g_pP : option R }.
(** correction of a wind speed of a misaligned turbine: rews *= (cosm**p)**e; PCt_file.py:317-333 *)
Definition mis_factor (p : option R) (yawm e : R) : R := match p with Some p => yaw_factor (cos (yawm / 180 * PI)) p e | None => 1 end.
(** rotor and turbine type: [fst w] the yaw angle fdata[YAW] when the rotor model runs, [snd w] the wind speed at the rotor point. REWS, REWS2, REWS3 are the wind speed along the rotor axis, models/rotor_models/centre.py:172-189;
    thrust and power from REWS2 and REWS3 with their corrections, PCt_file.py:305-347. (The corrections may change REWS2 and REWS3 in place, cf. Curves_Model.correct; the rotor model sets them anew before the next use.) *)
Definition mis_results (wd : R) (m : mis) (w : R * R) : tres :=
  let u := centre_rews (fst w) {| i_wd := wd; i_ws := snd w; i_w := 1 |} in
  {| r_ws := u; r_ct := value (y_C (g_type m)) (u * mis_factor (g_pct m) (g_yawm m) (1 / 2)); r_p := value (y_P (g_type m)) (u * mis_factor (g_pP m) (g_yawm m) (1 / 3)) |}.
(** yawm2yaw.py:59-65 *)
Definition yaw_of (wd : R) (m : mis) : R := rmod (wd + g_yawm m) 360.
(** the turbine without its misalignment *)
Definition plain (t : turb mis) : turb ttype := mkturb (t_pos t) (t_diam t) (g_type (t_set t)).
(** the wake model as in Whole_Model. When a turbine is evaluated in the wake calculation (algorithms/downwind/models/farm_wakes_calc.py:81-105), the yaw angle is the one that yawm2yaw has set in the ambient calculation. *)
Definition mis_wmodel (c : scene) : @wmodel (turb mis) tres R (R * R) :=
  mkw true (fun _ => 0)
      (fun s f t d => add_wake (c_s c) d (wake_contrib c (g_type (t_set s)) (t_diam s) f
         (wake_coos (t_pos s) (wake_wd (uniform c) (plain s)) (rotor_point (t_pos t) (c_wd c) (t_diam t) {| py := 0; pz := 0; pw := 1 |}))))
      (fun t w d => (yaw_of (c_wd c) (t_set t), snd w + final_delta (c_s c) false (c_low c) (c_high c) (c_wsp c) d)).
(** the ambient calculation: InitFarmData sets the yaw angle to the wind direction, init_farm_data.py:130, before the rotor model runs *)
Definition mis_amb (c : scene) (_ : turb mis) : R * R := (c_wd c, c_wsp c).
(** results of a turbine *)
Definition mis_ev (c : scene) (t : turb mis) (w : R * R) : tres := mis_results (c_wd c) (t_set t) w.
(** unused default *)
Definition no_mis : turb mis := mkturb (0, 0, 0) 0 {| g_type := t_set no_turb; g_yawm := 0; g_pct := None; g_pP := None |}.
(** processing order, models/wake_frames/rotor_wd.py:62-66, calculated before the yaw angles are changed (init_farm_data.py:114-137) *)
Definition mis_order (c : scene) (farm : list (turb mis)) : list nat := argsort Rleb (along (uniform c) (map plain farm)).
(** Downwind.calc_farm; algorithms/downwind/downwind.py:422-470 *)
Definition mis_farm (c : scene) (farm : list (turb mis)) : result (list tres) :=
  calc_with (mis_amb c) (mis_ev c) no_mis no_res 0 [mis_wmodel c] farm (mis_order c farm).
(** AMB_P and AMB_CT, AMB_REWS: set_amb_farm_results.py copies the results of the ambient calculation *)
Definition mis_ambient (c : scene) (t : turb mis) : tres := mis_ev c t (mis_amb c t).
