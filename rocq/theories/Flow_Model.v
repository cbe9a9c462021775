(** Complete flow calculations: calc_farm for many states of uniform wind, then calc_points for points that may differ from state to state, each chunked over states and points and calculated by
    an engine in any order of completion. The models are those of Whole_Model. *)
From Verif Require Export RBase Chunk_Model EngineRun_Model PointWakes_Model Whole_Model YieldRun_Model.
Local Open Scope R_scope.

(** results at a point: WS and AMB_WS *)
Record pres := { p_ws : R; p_amb : R }.
(** the wake of a turbine at a point: point_wakes_calc.py:128-132, ground_models/no_ground.py (contribute_to_point_wakes), wake frame models/wake_frames/rotor_wd.py:100-119 *)
Definition flow_wake (c : scene) : swake (turb ttype) tres vec3 :=
  PointWakes_Model.mks _ _ _ (c_s c) false (c_low c) (c_high c) (fun t f p => wake_contrib c (t_set t) (t_diam t) f (wake_coos (t_pos t) (wake_wd (uniform c) t) p)).
(** wind speed at a point, point_wakes_calc.py:117-149, with the farm results of the state; the ambient wind is input/states/single.py:160-224; AMB_WS is copied before the wakes are added,
    set_amb_point_results.py:88-90 *)
Definition at_point (c : scene) (farm : list (turb ttype)) (res : list tres) (p : vec3) : pres :=
  {| p_ws := point_value (fun _ => c_wsp c) [flow_wake c] (combine farm res) p; p_amb := c_wsp c |}.
(** the calculation of a chunk of states and points, engines/pool.py:10-16, core/algorithm.py:846-900: farm results and points of the chunk *)
Definition chunk_points (c : scene) (farm : list (turb ttype)) (xs : list (wstate * list tres)) (ps : list (list vec3)) : list (list pres) :=
  map (fun xr => map (at_point (at_state c (fst (fst xr))) farm (snd (fst xr))) (snd xr)) (combine xs ps).
(** Downwind.calc_points, algorithms/downwind/downwind.py:689-828: n_points = points.shape[1]; the chunk sizes core/engine.py:245-319; the jobs engines/pool.py:190-297 *)
Definition calc_points (c : scene) (farm : list (turb ttype)) (np : Z) (css csp : option Z) (zs : list wstate) (rows : list (list tres)) (ps : list (list vec3)) (sched : list job) : result (list (list pres)) :=
  bind (calc_chunk_sizes (length zs) np css csp (Z.of_nat (length zs)) (Z.of_nat (length (hd [] ps)))) (fun ch =>
  run_pool (chunk_points c farm) (combine zs rows) ps (map Z.to_nat (fst ch)) (map Z.to_nat (snd ch)) sched).
(** calc_farm followed by calc_points *)
Definition calc_flow (c : scene) (farm : list (turb ttype)) (np : Z) (css csp : option Z) (zs : list wstate) (ps : list (list vec3)) (sched sched_p : list job) : result (list (list tres) * list (list pres)) :=
  bind (run_farm c farm np css csp zs sched) (fun rows => bind (calc_points c farm np css csp zs rows ps sched_p) (fun out => Ok (rows, out))).
