(** Specification for C262: the downwind algorithm with the turbulence model listed before the wind deficit model. *)
From Verif Require Import RBase WindDir_Model Superp_Model Superp_Spec Curves_Model Curves_Spec Symm_Model Whole_Model Whole_Spec Both_Model Both_Spec.
Local Open Scope R_scope.

(** f0: what the turbine t with results f would return in the wind of the state, with the turbulence it has in the results *)
Definition in_free_wind (g : bscene) (t : turb ttype) (f f0 : bres) : Prop :=
  b_ws f0 = c_wsp (b_c g) /\ b_ti f0 = b_ti f /\ interp (y_C (t_set t)) (c_wsp (b_c g)) = Ok (b_ct f0) /\ interp (y_P (t_set t)) (c_wsp (b_c g)) = Ok (b_p f0).
(** The wind speeds are in balance with wakes that grow with the turbulence intensity at the turbines that cause them, and the turbulence intensities are those added by turbines that run in the wind of the state *)
Definition balance_ti_first (g : bscene) (farm : list (turb ttype)) (res : list bres) : Prop :=
  length res = length farm /\ exists free, length free = length farm /\
  (forall j, (j < length farm)%nat -> in_free_wind g (nth j farm no_turb) (nth j res no_bres) (nth j free no_bres)) /\
  forall j, (j < length farm)%nat ->
    let c := b_c g in
    let t := nth j farm no_turb in
    let sources := seq 0 (length farm) in
    let u := limited (c_low c) (c_high c) (c_wsp c + combination (c_s c) false (c_wsp c) (map (fun i => wind_effect g (b_ti (nth i res no_bres)) (nth i farm no_turb) (nth i res no_bres) t) sources)) in
    let v := b_ti0 g + combination (b_ts g) (b_quad g) (b_ti0 g) (map (fun i => ti_effect g (nth i farm no_turb) (nth i free no_bres) t) sources) in
    b_ws (nth j res no_bres) = u /\ b_ti (nth j res no_bres) = v /\
    interp (y_C (t_set t)) u = Ok (b_ct (nth j res no_bres)) /\ interp (y_P (t_set t)) u = Ok (b_p (nth j res no_bres)).
(** the added turbulence depends on the results of the turbine through its turbulence intensity and thrust only *)
Definition by_thrust (g : bscene) : Prop := forall D f f' x r, b_ti f = b_ti f' -> b_ct f = b_ct f' -> b_added g D f x r = b_added g D f' x r.
(** the thrust coefficient is the same at the wind speed of the state and at all wind speeds between the lower limit and that *)
Definition flat_thrust (g : bscene) (farm : list (turb ttype)) : Prop := forall t x y z, In t farm -> (forall l, c_low (b_c g) = Some l -> l <= x) -> x <= c_wsp (b_c g) ->
  interp (y_C (t_set t)) x = Ok y -> interp (y_C (t_set t)) (c_wsp (b_c g)) = Ok z -> y = z.
