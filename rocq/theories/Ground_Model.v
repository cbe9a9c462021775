(** Complete farm and point calculations with a ground model that mirrors wakes (models/ground_models/wake_mirror.py): uniform wind, wake frame rotor_wd, centre rotor, centre partial wakes, the wind
    deficit models and superpositions of Whole_Model. With centre partial wakes the wakes of the images (pwake.contribute, lines 87-89) are calculated at the same points as the direct wakes (78-79). *)
From Verif Require Export RBase WindDir_Model Rotor_Model Superp_Model Mirror_Model FarmWakes_Model AnyOrder_Model Symm_Model PointWakes_Model Whole_Model Flow_Model.
Local Open Scope R_scope.

(** a turbine with its hub at another height: fdata[TXYH][:, downwind_index, 2] = z; wake_mirror.py:85, 140 *)
Definition raised (s : turb ttype) (z : R) : turb ttype := mkturb (vx (t_pos s), vy (t_pos s), z) (t_diam s) (t_set s).
(** the wake causing turbine and its images, in the order of the calculation; wake_mirror.py:77-89, 132-147. The heights of the images are calculated from the height of the turbine (hh, lines 71, 130). *)
Definition images (hs : list R) (s : turb ttype) : list (turb ttype) := s :: map (fun h => raised s (Mirror_Model.reflect h (vz (t_pos s)))) hs.
(** the wake of one source at a point: wake frame and wake model, wake_mirror.py:78-79, 142-147; the wind direction fdata[WD] is that of the turbine *)
Definition image_contrib (c : scene) (s : turb ttype) (f : tres) (i : turb ttype) (p : vec3) : contrib :=
  wake_contrib c (t_set s) (t_diam s) f (wake_coos (t_pos i) (wake_wd (uniform c) s) p).
(** WakeMirror.contribute_to_farm_wakes, wake_mirror.py:32-92; the superposition as in Whole_Model. The target point of centre partial wakes is the hub, models/partial_wakes/centre.py:18-41. *)
Definition mirror_wmodel (c : scene) (hs : list R) : @wmodel (turb ttype) tres R R :=
  mkw true (fun _ => 0)
      (fun s f t d => fold_left (fun d i => add_wake (c_s c) d (image_contrib c s f i (rotor_point (t_pos t) (c_wd c) (t_diam t) {| py := 0; pz := 0; pw := 1 |}))) (images hs s) d)
      (fun _ w d => w + final_delta (c_s c) false (c_low c) (c_high c) (c_wsp c) d).
(** Downwind.calc_farm with the ground model; algorithms/downwind/downwind.py:422-470, algorithms/downwind/models/farm_wakes_calc.py:137-142 *)
Definition mirror_farm (c : scene) (hs : list R) (farm : list (turb ttype)) : result (list tres) :=
  calc_with (amb amb_ws (uniform c)) (ev turbine_results) no_turb no_res 0 [mirror_wmodel c hs] farm (argsort Rleb (along (uniform c) farm)).
(** WS and AMB_WS at a point: algorithms/downwind/models/point_wakes_calc.py:117-149 with WakeMirror.contribute_to_point_wakes, wake_mirror.py:94-150: the turbines one after the other, each with its images *)
Definition mirror_point (c : scene) (hs : list R) (farm : list (turb ttype)) (res : list tres) (p : vec3) : pres :=
  {| p_ws := c_wsp c + final_delta (c_s c) false (c_low c) (c_high c) (c_wsp c)
               (fold_left (fun d tf => fold_left (fun d i => add_wake (c_s c) d (image_contrib c (fst tf) (snd tf) i p)) (images hs (fst tf)) d) (combine farm res) 0);
     p_amb := c_wsp c |}.
