(** Specification of a complete farm calculation (C250): the equations a reader of the wake model papers would write down. *)
From Verif Require Import RBase WindDir_Model Superp_Model Superp_Spec Curves_Model Curves_Spec Symm_Model Whole_Model.
Local Open Scope R_scope.

(** distance of turbine t behind turbine s along the wind that comes from wd degrees (clockwise from north), and the distance from the axis of its wake *)
Definition behind (wd : R) (s t : turb ttype) : R :=
  - ((vx (t_pos t) - vx (t_pos s)) * sin (wd * PI / 180) + (vy (t_pos t) - vy (t_pos s)) * cos (wd * PI / 180)).
Definition beside (wd : R) (s t : turb ttype) : R :=
  let cross := (vx (t_pos t) - vx (t_pos s)) * cos (wd * PI / 180) - (vy (t_pos t) - vy (t_pos s)) * sin (wd * PI / 180) in
  let dz := vz (t_pos t) - vz (t_pos s) in sqrt (cross * cross + dz * dz).
(** axial induction of the thrust coefficient, from ct = 4 a (1 - a), thrust cut at ctmax *)
Definition induction (ctmax ct : R) : R := (1 - sqrt (1 - Rmin ct ctmax)) / 2.
(** the deficit formulas of Jensen (1983) and Bastankhah and Porte-Agel (2014) *)
Definition formula (c : scene) (D k ct x r : R) : R :=
  match c_def c with
  | Jensen => if Rlt_dec r (D / 2 + k * x) then - 2 * induction (c_ctmax c) ct * (D / (D + 2 * k * x)) ^ 2 else 0
  | Gauss sbeta =>
      let a := induction (c_ctmax c) ct in
      let sigma := k * x + sbeta * sqrt ((1 - a) / (1 - 2 * a)) * D in
      Rmax (- 2 * induction (c_ctmax c) (ct / (8 * (sigma / D) ^ 2))) (- 1) * exp (- (r ^ 2 / (2 * sigma ^ 2)))
  end.
(** what turbine s with results f does to turbine t: nothing unless t is behind s and s has thrust *)
Definition effect (c : scene) (s : turb ttype) (f : tres) (t : turb ttype) : contrib :=
  if Rlt_dec 1e-8 (behind (c_wd c) s t) then
    if Rlt_dec 1e-8 (r_ct f) then
      Some (if c_amb c then c_wsp c else r_ws f, formula c (t_diam s) (y_k (t_set s)) (r_ct f) (behind (c_wd c) s t) (beside (c_wd c) s t))
    else None
  else None.
(** limits of the wind speed *)
Definition limited (low high : option R) (u : R) : R :=
  let v := match low with Some l => Rmax u l | None => u end in match high with Some h => Rmin v h | None => v end.
(** The results are in balance: every turbine has the wind speed that the superposed wakes of all turbines of the farm leave over, and the thrust and the power that belong to it. *)
Definition balanced (c : scene) (farm : list (turb ttype)) (res : list tres) : Prop :=
  length res = length farm /\
  forall j, (j < length farm)%nat ->
    let u := limited (c_low c) (c_high c) (c_wsp c + combination (c_s c) false (c_wsp c) (map (fun i => effect c (nth i farm no_turb) (nth i res no_res) (nth j farm no_turb)) (seq 0 (length farm)))) in
    r_ws (nth j res no_res) = u /\
    interp (y_C (t_set (nth j farm no_turb))) u = Ok (r_ct (nth j res no_res)) /\
    interp (y_P (t_set (nth j farm no_turb))) u = Ok (r_p (nth j res no_res)).
(** reasonable curves: sorted, not empty, thrust coefficients and powers not negative *)
Definition good_type (y : ttype) : Prop :=
  y_C y <> [] /\ y_P y <> [] /\ sorted (y_C y) /\ sorted (y_P y) /\ (forall x v, In (x, v) (y_C y) -> 0 <= v) /\ (forall x v, In (x, v) (y_P y) -> 0 <= v) /\ 0 <= y_k y.
(** reasonable turbines, wind and models: the wind speed within the limits; wind speeds that scale the deficits cannot be negative *)
Definition good_farm (farm : list (turb ttype)) : Prop := forall t, In t farm -> good_type (t_set t) /\ 0 < t_diam t.
Definition good_scene (c : scene) : Prop :=
  0 < c_wsp c /\ 0 <= c_ctmax c < 1 /\ is_ws (c_s c) = true /\ pow_ok (c_s c) /\ (match c_def c with Gauss sbeta => 0 < sbeta | Jensen => True end) /\
  (forall l, c_low c = Some l -> l <= c_wsp c) /\ (forall h, c_high c = Some h -> c_wsp c <= h) /\
  (c_amb c = true \/ (match c_s c with WSLinearLocal | WSQuadraticLocal | WSMaxLocal | WSPowLocal _ => True | _ => False end) \/ exists l, c_low c = Some l /\ 0 <= l).
