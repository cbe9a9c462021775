(** Specification for C265: the balance of a farm with blockage. *)
From Verif Require Import RBase Superp_Model Superp_Spec Curves_Model Curves_Spec Blockage_Model Symm_Model Whole_Model Whole_Spec UpWake_Model.
Local Open Scope R_scope.

(** formulas of the models: relative slow down at the distance x <= 0 upstream and r beside the axis, in rotor radii.
    Troldborg and Meyer Forsting (2017): induction * axial shape * radial shape *)
Definition axial (x : R) : R := 1 + x / sqrt (1 + x ^ 2).
Definition radial (half r : R) : R := Rpower (/ cosh (sqrt 2 * r / half)) (8 / 9).
(** Meyer Forsting et al. (2021): the factor of the thrust is that of the near field up to one radius, that of the far field from six radii on *)
Definition factor20 (ct x : R) : R :=
  let near := -1.381 * ct ^ 3 + 2.627 * ct ^ 2 - 1.524 * ct + 1.336 in
  let far := -0.06489 * sin ((ct - 0.4911) / 0.1577) + 1.116 in
  let part := (axial (Rmin (Rmax (- Rabs x) (-6)) (-1)) - axial (-1)) / (axial (-6) - axial (-1)) in
  part * far + (1 - part) * near.
(** Branlard and Meyer Forsting (2020), Rathmann's radial shape *)
Definition rathmann_shape (x r : R) : R :=
  let sin2a := 2 * x / sqrt ((x ^ 2 + (r - 1) ^ 2) * (x ^ 2 + (r + 1) ^ 2)) in
  sqrt (0.5 * (1 - sqrt (1 - sin2a ^ 2))) * (1 / sqrt (x ^ 2 + r ^ 2 + 1)) * (1 + x ^ 2).
Definition slow_down (c : scene) (b : bset) (ct x r : R) : R :=
  match b_model b with
  | SelfSimilar gamma => induction (c_ctmax c) (gamma * ct) * axial x * radial (sqrt (0.587 * (1.32 + x ^ 2))) r
  | SelfSimilar2020 => induction (c_ctmax c) (factor20 ct x * ct) * axial x * radial (0.4897 - 0.672 * x) r
  | Rathmann => induction (c_ctmax c) ct * axial x * rathmann_shape x r
  end.
(** distances in radii of the wake causing turbine, the one along the wind with twelve decimals *)
Definition radii_behind (c : scene) (s t : turb ttype) : R := round12 (behind (c_wd c) s t / (t_diam s / 2)).
Definition radii_beside (c : scene) (s t : turb ttype) : R := beside (c_wd c) s t / (t_diam s / 2).
(** what turbine s with results f does to turbine t: it slows the wind down in front of itself; unless restricted to the region in front, it speeds the wind up behind and beside itself *)
Definition block_effect (c : scene) (b : bset) (s : turb ttype) (f : tres) (t : turb ttype) : contrib :=
  let x := radii_behind c s t in let r := radii_beside c s t in
  if Rlt_dec 1e-8 (r_ct f) then
    if Rle_dec x 0 then Some (if c_amb c then c_wsp c else r_ws f, - slow_down c b (r_ct f) x r)
    else if b_pre b then None else if Rlt_dec 1 r then Some (if c_amb c then c_wsp c else r_ws f, slow_down c b (r_ct f) (- x) r) else None
  else None.
(** the effects of all other turbines on turbine j *)
Definition other_effects (c : scene) (b : bset) (farm : list (turb ttype)) (res : list tres) (j : nat) : list contrib :=
  map (fun i => block_effect c b (nth i farm no_turb) (nth i res no_res) (nth j farm no_turb)) (filter (fun i => negb (Nat.eqb i j)) (seq 0 (length farm))).
(** every turbine has the wind speed that the superposed effects of all other turbines leave over, and the thrust and the power that belong to it *)
Definition block_balanced (c : scene) (b : bset) (farm : list (turb ttype)) (res : list tres) : Prop :=
  length res = length farm /\
  forall j, (j < length farm)%nat ->
    let u := limited (c_low c) (c_high c) (c_wsp c + combination (c_s c) false (c_wsp c) (other_effects c b farm res j)) in
    r_ws (nth j res no_res) = u /\
    interp (y_C (t_set (nth j farm no_turb))) u = Ok (r_ct (nth j res no_res)) /\
    interp (y_P (t_set (nth j farm no_turb))) u = Ok (r_p (nth j res no_res)).
(** only the region in front *)
Definition front_only (b : bset) : bset := {| b_model := b_model b; b_pre := true |}.
(** no two turbines at the same distance along the wind, up to a billionth of a millimetre per metre of rotor diameter *)
Definition staggered (c : scene) (farm : list (turb ttype)) : Prop :=
  forall i j, (i < length farm)%nat -> (j < length farm)%nat -> i <> j -> 1e-12 * t_diam (nth i farm no_turb) < Rabs (behind (c_wd c) (nth i farm no_turb) (nth j farm no_turb)).
(** reasonable parameters: a factor that is not negative; the fit of the thrust factor of 2020 is for thrust coefficients up to one *)
Definition good_block (b : bset) (farm : list (turb ttype)) : Prop :=
  match b_model b with SelfSimilar gamma => 0 <= gamma | SelfSimilar2020 => forall t x v, In t farm -> In (x, v) (y_C (t_set t)) -> v <= 1 | Rathmann => True end.
