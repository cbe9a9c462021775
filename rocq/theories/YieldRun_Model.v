(** Energy yields of complete runs: many states of uniform wind (input/states/states_table.py, scan.py, single.py), chunked and calculated by an engine in any order of completion, then evaluated by
    output/farm_results_eval.py. The models of a state are those of Whole_Model. *)
From Verif Require Export RBase Chunk_Model EngineRun_Model FarmEval_Model Whole_Model.
Local Open Scope R_scope.

(** a state: wind direction, wind speed, weight; input/states/states_table.py:356-420 *)
Record wstate := { z_wd : R; z_ws : R; z_weight : R }.
(** the models of c in the wind of a state *)
Definition at_state (c : scene) (z : wstate) : scene :=
  {| c_wd := z_wd z; c_wsp := z_ws z; c_def := c_def c; c_ctmax := c_ctmax c; c_s := c_s c; c_low := c_low c; c_high := c_high c; c_amb := c_amb c |}.
(** the calculation of a chunk of states, engines/pool.py:10-16; arrays over the states of the chunk. Within the models used here all array operations act on each state by itself *)
Definition chunk_farm (c : scene) (farm : list (turb ttype)) (zs : list wstate) : list (result (list tres)) := map (fun z => farm_results (at_state c z) farm) zs.
(** an exception in any chunk ends the run, engines/pool.py:278-281 *)
Fixpoint all_ok {A} (l : list (result A)) : result (list A) :=
  match l with [] => Ok [] | Ok a :: l' => bind (all_ok l') (fun r => Ok (a :: r)) | Err e :: _ => Err e end.
(** the run of an engine, core/engine.py:245-319, engines/pool.py:190-297, core/engine.py:421-537 *)
Definition run_farm (c : scene) (farm : list (turb ttype)) (np : Z) (css csp : option Z) (zs : list wstate) (sched : list job) : result (list (list tres)) :=
  bind (calc_chunk_sizes (length zs) np css csp (Z.of_nat (length zs)) 0) (fun ch => bind (run_pool_farm (chunk_farm c farm) zs (map Z.to_nat (fst ch)) sched) all_ok).
(** the variables P and AMB_P of the results; AMB_P: algorithms/downwind/models/set_amb_farm_results.py:50-69 *)
Definition power (rows : list (list tres)) : arr := fun s t => r_p (nth t (nth s rows []) no_res).
(** unused default value *)
Definition no_state : wstate := {| z_wd := 0; z_ws := 0; z_weight := 0 |}.
(** AMB_P: results of the turbine types before any wakes, algorithms/downwind/models/set_amb_farm_results.py:50-69 *)
Definition amb_power (farm : list (turb ttype)) (zs : list wstate) : arr :=
  fun s t => r_p (turbine_results (t_set (nth t farm no_turb)) (amb_ws (z_ws (nth s zs no_state)) tt)).
(** annual yields of the turbines, with and without wakes: farm_results_eval.py:412-489, with P_unit_W = unit *)
Definition yields (c : scene) (farm : list (turb ttype)) (np : Z) (css csp : option Z) (zs : list wstate) (sched : list job) (unit : R) : result ((nat -> R) * (nat -> R)) :=
  bind (run_farm c farm np css csp zs sched) (fun rows =>
  let w := WS (fun s => z_weight (nth s zs no_state)) in
  bind (calc_turbine_yield (length zs) (length farm) Plain None (Some unit) true None None w (power rows)) (fun y =>
  bind (calc_turbine_yield (length zs) (length farm) Plain None (Some unit) true None None w (amb_power farm zs)) (fun y0 => Ok (y, y0)))).
