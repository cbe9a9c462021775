(** A complete farm calculation by the downwind algorithm with a blockage model as the only wake model: one state of uniform wind, wake frame rotor_wd, centre rotor, centre partial wakes,
    a self similar or the Rathmann induction model, wind speed superpositions and turbine types as in Whole_Model. *)
From Verif Require Export RBase WindDir_Model Rotor_Model Superp_Model Induction_Model Blockage_Model Curves_Model FarmWakes_Model AnyOrder_Model Symm_Model Whole_Model.
Local Open Scope R_scope.

(** models/wake_models/induction/self_similar.py with its parameter gamma, self_similar2020.py, rathmann.py *)
Inductive bmodel := SelfSimilar (gamma : R) | SelfSimilar2020 | Rathmann.
(** the model and its parameter pre_rotor_only; self_similar.py:36-66, rathmann.py:40-60. The axial induction is the default Betz *)
Record bset := { b_model : bmodel; b_pre : bool }.
(** the delta that is given to the superposition; self_similar.py:207-252, rathmann.py:179-236 *)
Definition block_value (c : scene) (b : bset) (R0 ct wx wy wz : R) : R :=
  match b_model b with
  | SelfSimilar gamma => self_similar (betz (c_ctmax c)) gamma (b_pre b) R0 ct wx wy wz
  | SelfSimilar2020 => self_similar2020 (betz (c_ctmax c)) (b_pre b) R0 ct wx wy wz
  | Rathmann => rathmann (betz (c_ctmax c)) (b_pre b) R0 ct wx wy wz
  end.
(** one wake causing turbine and one target point: the two selections, self_similar.py:211-241, rathmann.py:180-226; its scale is that of superpositions/ws_linear.py:118-134 *)
Definition block_contrib (c : scene) (b : bset) (D : R) (f : tres) (q : vec3) : contrib :=
  let x := round12 (vx q / (D / 2)) in
  let r := sqrt (vy q * vy q + vz q * vz q) / (D / 2) in
  if Rltb 1e-8 (r_ct f) && (Rleb x 0 || (negb (b_pre b) && (Rltb 0 x && Rltb 1 r)))
  then Some (if c_amb c then c_wsp c else r_ws f, block_value c b (D / 2) (r_ct f) (vx q) (vy q) (vz q))
  else None.
(** the wake model with its superposition; affects_downwind is False, core/wake_model.py:155-164 *)
Definition block_smodel (c : scene) (b : bset) : smodel ttype tres R R :=
  mks false (fun _ _ => 0)
    (fun y D f qs _ _ d => match qs with [q] => add_wake (c_s c) d (block_contrib c b D f q) | _ => d end)
    (fun _ _ w d => w + final_delta (c_s c) false (c_low c) (c_high c) (c_wsp c) d).
(** Downwind.calc_farm with this wake model alone, results in farm order; algorithms/downwind/downwind.py:422-470, farm_wakes_calc.py:144-167 *)
Definition block_farm (c : scene) (b : bset) (farm : list (turb ttype)) : result (list tres) :=
  calc amb_ws turbine_results centre_points no_turb no_res 0 (uniform c) [block_smodel c b] farm.
