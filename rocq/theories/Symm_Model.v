(** The downwind farm calculation for one state, from positions and wind field to results: rotor_wd wake frame, centre rotor, partial wakes
    at any set of rotor points, any list of wake models. Floats are real numbers. Simplifications: the turbine models (ev) see the inflow and the
    settings of their turbine only (no sector management or other models that look at positions and directions), the turbines are not yawed. *)
From Verif Require Export RBase WindDir_Model Rotor_Model Order_Model FarmWakes_Model AnyOrder_Model.
Local Open Scope R_scope.

Section Symm.
  (** settings of a turbine (type, models), ambient data other than the wind, farm data results, wake deltas, rotor results *)
  Context {P A F D W : Type}.
  (** input/farm_layout, core/turbine.py:57-87: position with hub height, rotor diameter, settings *)
  Record turb := mkturb { t_pos : vec3; t_diam : R; t_set : P }.
  (** the results of the states at a point: wind direction, wind speed, others; core/states.py, output_point_vars *)
  Record air := mkair { a_wd : R; a_ws : R; a_rest : A }.
  (** a wind field, as the states calculate it for one state; input/states *)
  Definition field := vec3 -> air.
  (** ambient rotor results from the values at the hub, models/rotor_models/centre.py:86-202; turbine results from rotor results *)
  Variable amb0 : R -> A -> W.
  Variable ev0 : P -> W -> F.
  (** a wake model with its superposition: settings, diameter and results of the wake causing turbine, wake coordinates of the target points,
      settings and diameter of the target turbine; models/wake_models/dist_sliced.py:119-180, 182-216; core/partial_wakes_model.py:98-134 *)
  Record smodel := mks {
    s_down : bool;
    s_new : P -> R -> D;
    s_contrib : P -> R -> F -> list vec3 -> P -> R -> D -> D;
    s_add : P -> R -> W -> D -> W }.
  (** design points of the partial wakes model, models/partial_wakes/grid.py:14-26, centre.py:18-41 *)
  Variable dps : list rpt.

  (** fdata[WD] of a turbine after the rotor model: models/rotor_models/centre.py:149-163 *)
  Definition wake_wd (f : field) (t : turb) : R := uv2wd (wd2uv (a_wd (f (t_pos t))) (a_ws (f (t_pos t)))).
  (** the target points of a turbine; the yaw angle is the wind direction at the hub, init_farm_data.py:108-111, 130; core/rotor_model.py:131-173 *)
  Definition target_points (f : field) (t : turb) : list vec3 := map (rotor_point (t_pos t) (a_wd (f (t_pos t))) (t_diam t)) dps.
  (** contribution of one turbine to another one: algorithms/downwind/models/farm_wakes_calc.py:137-142, core/partial_wakes_model.py:133-134,
      models/wake_frames/rotor_wd.py:100-119 *)
  Definition as_model (f : field) (m : smodel) : @wmodel turb F D W :=
    mkw (s_down m) (fun t => s_new m (t_set t) (t_diam t))
        (fun s fs t d => s_contrib m (t_set s) (t_diam s) fs (map (wake_coos (t_pos s) (wake_wd f s)) (target_points f t)) (t_set t) (t_diam t) d)
        (fun t w d => s_add m (t_set t) (t_diam t) w d).
  (** ambient results of a turbine *)
  Definition amb (f : field) (t : turb) : W := amb0 (a_ws (f (t_pos t))) (a_rest (f (t_pos t))).
  (** results of a turbine *)
  Definition ev (t : turb) (w : W) : F := ev0 (t_set t) w.
  (** the mean wind vector of the turbines, models/wake_frames/rotor_wd.py:62 *)
  Definition mean_dir (f : field) (farm : list turb) : R * R :=
    (rsum (map (fun t => fst (wd2uv (a_wd (f (t_pos t))) 1)) farm) / INR (length farm),
     rsum (map (fun t => snd (wd2uv (a_wd (f (t_pos t))) 1)) farm) / INR (length farm)).
  (** projections of the positions, rotor_wd.py:63-64 *)
  Definition along (f : field) (farm : list turb) : list R :=
    let n := mean_dir f farm in map (fun t => vx (t_pos t) * fst n + vy (t_pos t) * snd n) farm.
  Variables (dT : turb) (dF : F) (d0 : D).
  (** the farm calculation, results in farm order: algorithms/downwind/downwind.py:422-470 *)
  Definition calc (f : field) (ms : list smodel) (farm : list turb) : result (list F) :=
    calc_with (amb f) ev dT dF d0 (map (as_model f) ms) farm (argsort Rleb (along f farm)).
End Symm.
Arguments turb : clear implicits.
Arguments air : clear implicits.
Arguments field : clear implicits.
Arguments smodel : clear implicits.
