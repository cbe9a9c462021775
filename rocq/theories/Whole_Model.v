(** A complete farm calculation with the models of foxes put together: one state of uniform wind (input/states/single.py), the wake frame rotor_wd, the centre rotor, centre partial
    wakes, one wind deficit model (Jensen or Bastankhah2014), one wind speed superposition, turbine types with power and thrust curves. Not yawed, no air density correction, no
    turbulence model, the wake growth k given per turbine. *)
From Verif Require Export RBase WindDir_Model Rotor_Model Superp_Model Induction_Model Curves_Model Symm_Model.
Local Open Scope R_scope.

(** type of a turbine: power curve, thrust curve (models/turbine_types/PCt_file.py:151-200), and the wake growth parameter (core/wake_model.py:187-300) *)
Record ttype := { y_P : table; y_C : table; y_k : R }.
(** results of a turbine: rotor effective wind speed REWS, thrust coefficient CT, power P *)
Record tres := { r_ws : R; r_ct : R; r_p : R }.
(** the wind deficit models: models/wake_models/wind/jensen.py, bastankhah14.py with its sbeta_factor *)
Inductive wdef := Jensen | Gauss (sbeta : R).
(** the choice of models and the wind *)
Record scene := { c_wd : R; c_wsp : R; c_def : wdef; c_ctmax : R; c_s : superp; c_low : option R; c_high : option R; c_amb : bool }.
(** value of a curve, models/turbine_types/PCt_file.py:340-345; tables are not empty *)
Definition value (t : table) (x : R) : R := match interp t x with Ok y => y | Err _ => 0 end.
(** models/turbine_types/PCt_file.py:336-347 with the effective wind speed of models/rotor_models/centre.py:149-202 *)
Definition turbine_results (y : ttype) (u : R) : tres := {| r_ws := u; r_ct := value (y_C y) u; r_p := value (y_P y) u |}.
(** deficit at the distance x behind and r beside the rotor, relative to the wind speed: jensen.py:150-167 with top_hat.py:198-227, bastankhah14.py:176-185 with gaussian.py:97-106 *)
Definition deficit (c : scene) (D k ct x r : R) : R :=
  match c_def c with
  | Jensen => jensen_deficit (betz (c_ctmax c)) D k ct x r
  | Gauss sbeta => gauss_deficit (betz (c_ctmax c)) sbeta D k ct x r
  end.
(** models/wake_models/axisymmetric.py:104-105: x and r from the wake coordinates; the selection x > 1e-8 & ct > 1e-8 of top_hat.py:211, bastankhah14.py:146; the scale of ws_linear.py:118-134:
    AMB_REWS if scale_amb, else REWS of the wake causing turbine *)
Definition wake_contrib (c : scene) (y : ttype) (D : R) (f : tres) (q : vec3) : contrib :=
  if Rltb 1e-8 (vx q) && Rltb 1e-8 (r_ct f)
  then Some (if c_amb c then c_wsp c else r_ws f, deficit c D (y_k y) (r_ct f) (vx q) (sqrt (vy q * vy q + vz q * vz q)))
  else None.
(** the wake model with its superposition; in uniform wind the ambient rotor result is the wind speed of the state *)
Definition wake_smodel (c : scene) : smodel ttype tres R R :=
  mks true (fun _ _ => 0)
    (fun y D f qs _ _ d => match qs with [q] => add_wake (c_s c) d (wake_contrib c y D f q) | _ => d end)
    (fun _ _ w d => w + final_delta (c_s c) false (c_low c) (c_high c) (c_wsp c) d).
(** uniform wind, input/states/single.py:160-224 *)
Definition uniform (c : scene) : field unit := fun _ => mkair (c_wd c) (c_wsp c) tt.
(** the ambient rotor results; values that fill unused places of lists *)
Definition amb_ws (ws : R) (_ : unit) : R := ws.
(** unused default values *)
Definition no_turb : turb ttype := mkturb (0, 0, 0) 0 {| y_P := []; y_C := []; y_k := 0 |}.
(** unused default values *)
Definition no_res : tres := {| r_ws := 0; r_ct := 0; r_p := 0 |}.
(** Downwind.calc_farm for this choice of models, results in farm order; algorithms/downwind/downwind.py:422-470 *)
Definition farm_results (c : scene) (farm : list (turb ttype)) : result (list tres) :=
  calc amb_ws turbine_results centre_points no_turb no_res 0 (uniform c) [wake_smodel c] farm.
