(** Complete farm calculations with a rotor of several points: uniform wind (input/states/single.py), wake frame rotor_wd, any rotor points with weights (models/rotor_models/grid.py, levels.py,
    centre.py), partial wakes at the rotor points (models/partial_wakes/rotor_points.py), wind deficit models and superpositions as in Whole_Model. Not yawed, no air density correction, no turbulence
    model. *)
From Verif Require Export RBase WindDir_Model Rotor_Model Superp_Model Symm_Model Whole_Model.
Local Open Scope R_scope.

(** results of a turbine: REWS, REWS2, REWS3, CT, P *)
Record rres := { q_ws : R; q_ws2 : R; q_ws3 : R; q_ct : R; q_p : R }.
(** the results that matter for the wake of a turbine: REWS and CT *)
Definition as_tres (f : rres) : tres := {| r_ws := q_ws f; r_ct := q_ct f; r_p := q_p f |}.
(** the wind vectors at the rotor points, core/rotor_model.py:222-238: in uniform wind, wakes change the wind speed only *)
Definition rotor_flow (c : scene) (rule : list rpt) (us : list R) : list inflow := map (fun pu => {| i_wd := c_wd c; i_ws := snd pu; i_w := pw (fst pu) |}) (combine rule us).
(** core/rotor_model.py:256-313 with the yaw angle in wind direction, then the thrust from REWS2 and the power from REWS3, models/turbine_types/PCt_file.py:260-347 with the defaults of lines 51-52. The NaN of a
    negative cube is 0 here. *)
Definition rotor_results (c : scene) (rule : list rpt) (y : ttype) (us : list R) : rres :=
  let l := rotor_flow c rule us in
  let r2 := rews2 (c_wd c) l in
  let r3 := match rews3 (c_wd c) l with Some x => x | None => 0 end in
  {| q_ws := rews (c_wd c) l; q_ws2 := r2; q_ws3 := r3; q_ct := value (y_C y) r2; q_p := value (y_P y) r3 |}.
(** the wake deltas at the rotor points of the target turbine, core/partial_wakes_model.py:133-134 with one wake model *)
Fixpoint add_points (c : scene) (y : ttype) (D : R) (f : rres) (qs : list vec3) (d : list R) : list R :=
  match qs, d with
  | q :: qs', x :: d' => add_wake (c_s c) x (wake_contrib c y D (as_tres f) q) :: add_points c y D f qs' d'
  | _, _ => d
  end.
(** the final deltas are added point by point, models/partial_wakes/rotor_points.py:94-104, algorithms/downwind/models/farm_wakes_calc.py:85-98 *)
Fixpoint add_final (c : scene) (w d : list R) : list R :=
  match w, d with
  | u :: w', x :: d' => (u + final_delta (c_s c) false (c_low c) (c_high c) (c_wsp c) x) :: add_final c w' d'
  | _, _ => w
  end.
(** the wake model with its superposition; new wake deltas are zero at all rotor points, models/wake_models/dist_sliced.py:119-150 *)
Definition rotor_smodel (c : scene) (rule : list rpt) : smodel ttype rres (list R) (list R) :=
  mks true (fun _ _ => repeat 0 (length rule)) (fun y D f qs _ _ d => add_points c y D f qs d) (fun _ _ w d => add_final c w d).
(** ambient wind speeds at the rotor points, core/rotor_model.py:330-430, uniform wind *)
Definition amb_points (rule : list rpt) (ws : R) (_ : unit) : list R := repeat ws (length rule).
(** unused default values *)
Definition no_rres : rres := {| q_ws := 0; q_ws2 := 0; q_ws3 := 0; q_ct := 0; q_p := 0 |}.
(** Downwind.calc_farm, results in farm order; algorithms/downwind/downwind.py:422-470 *)
Definition rotor_farm (c : scene) (rule : list rpt) (farm : list (turb ttype)) : result (list rres) :=
  calc (amb_points rule) (rotor_results c rule) rule no_turb no_rres [] (uniform c) [rotor_smodel c rule] farm.
