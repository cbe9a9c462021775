(** Complete farm calculations by the iterative algorithm with a wind deficit model and a blockage model: one state of uniform wind, wake frame rotor_wd, centre rotor, centre partial wakes, wind deficits, superpositions and turbine
    types as in Whole_Model, blockage as in UpWake_Model. No under-relaxation. *)
From Verif Require Export RBase WindDir_Model Rotor_Model Superp_Model Blockage_Model Curves_Model Order_Model FarmWakes_Model AnyOrder_Model Symm_Model Whole_Model UpWake_Model.
Local Open Scope R_scope.

(** the wind deficit model with its superposition; the blockage model, its superposition with limits and the choice of the scaling wind speed; models/model_book.py:500-760 *)
Record jset := { j_c : scene; j_b : bset; j_s : superp; j_low : option R; j_high : option R; j_amb : bool }.
(** the scene of the blockage model: the same wind and induction model, its own superposition; models/wake_models/induction/self_similar.py:36-66 *)
Definition block_scene (g : jset) : scene :=
  {| c_wd := c_wd (j_c g); c_wsp := c_wsp (j_c g); c_def := c_def (j_c g); c_ctmax := c_ctmax (j_c g); c_s := j_s g; c_low := j_low g; c_high := j_high g; c_amb := j_amb g |}.
(** the two wake models; core/algorithm.py, algorithms/downwind/downwind.py:140-200 *)
Definition deficit_model (g : jset) : smodel ttype tres R R := wake_smodel (j_c g).
(** the blockage model of the list *)
Definition blockage_model (g : jset) : smodel ttype tres R R := block_smodel (block_scene g) (j_b g).
(** the order of calculation; models/wake_frames/rotor_wd.py:62-66 *)
Definition joint_order (g : jset) (farm : list (turb ttype)) : list nat := argsort Rleb (along (uniform (j_c g)) farm).
(** the wake models as the farm wakes calculation uses them *)
Definition joint_wakes (g : jset) (ms : list (smodel ttype tres R R)) : list (@wmodel (turb ttype) tres R R) := map (as_model centre_points (uniform (j_c g))) ms.
(** farm order of results in order of calculation; algorithms/downwind/models/reorder_farm_output.py:70-85 *)
Definition in_farm_order (o : list nat) (l : list tres) : list tres := gather no_res l (invert o).
(** one further iteration that starts from the given results in farm order; algorithms/iterative/models/farm_wakes_calc.py:90-163 *)
Definition next_results (g : jset) (ms : list (smodel ttype tres R R)) (farm : list (turb ttype)) (res : list tres) : list tres :=
  let o := joint_order g farm in
  in_farm_order o (sweep (amb amb_ws (uniform (j_c g))) (ev turbine_results) (joint_wakes g ms) (gather no_turb farm o) (gather no_res res o)).
(** Iterative.calc_farm after k iterations with wakes; algorithms/iterative/iterative.py:270-345 *)
Definition joint_results (g : jset) (ms : list (smodel ttype tres R R)) (farm : list (turb ttype)) (k : nat) : list tres :=
  let o := joint_order g farm in
  in_farm_order o (sweeps (amb amb_ws (uniform (j_c g))) (ev turbine_results) (joint_wakes g ms) (gather no_turb farm o) k).
