(** Specification for C252. *)
From Verif Require Import RBase WindDir_Model Superp_Model Superp_Spec Curves_Model Curves_Spec Symm_Model Whole_Model Whole_Spec Both_Model.
Local Open Scope R_scope.

(** turbine s with wake growth k *)
Definition with_k (s : turb ttype) (k : R) : turb ttype := mkturb (t_pos s) (t_diam s) {| y_P := y_P (t_set s); y_C := y_C (t_set s); y_k := k |}.
(** what turbine s with results f does to the wind at turbine t if its wake grows with the turbulence intensity ti *)
Definition wind_effect (g : bscene) (ti : R) (s : turb ttype) (f : bres) (t : turb ttype) : contrib :=
  effect (b_c g) (with_k s (b_ka g * ti + b_kb g)) {| r_ws := b_ws f; r_ct := b_ct f; r_p := b_p f |} t.
(** what it does to the turbulence: nothing unless t is behind s and s has thrust *)
Definition ti_effect (g : bscene) (s : turb ttype) (f : bres) (t : turb ttype) : contrib :=
  if Rlt_dec 1e-8 (behind (c_wd (b_c g)) s t) then
    if Rlt_dec 1e-8 (b_ct f) then Some (1, b_added g (t_diam s) f (behind (c_wd (b_c g)) s t) (beside (c_wd (b_c g)) s t)) else None
  else None.
(** The results are in balance, with wakes that grow with the turbulence intensities [growth_ti] of the turbines that cause them: every turbine has the wind speed and the turbulence intensity that follow from the
    superposed wakes of all turbines, and the thrust and power that belong to its wind speed. *)
Definition balance (g : bscene) (growth_ti : bres -> R) (farm : list (turb ttype)) (res : list bres) : Prop :=
  length res = length farm /\
  forall j, (j < length farm)%nat ->
    let c := b_c g in
    let t := nth j farm no_turb in
    let sources := seq 0 (length farm) in
    let u := limited (c_low c) (c_high c) (c_wsp c + combination (c_s c) false (c_wsp c) (map (fun i => wind_effect g (growth_ti (nth i res no_bres)) (nth i farm no_turb) (nth i res no_bres) t) sources)) in
    let v := b_ti0 g + combination (b_ts g) (b_quad g) (b_ti0 g) (map (fun i => ti_effect g (nth i farm no_turb) (nth i res no_bres) t) sources) in
    b_ws (nth j res no_bres) = u /\ b_ti (nth j res no_bres) = v /\
    interp (y_C (t_set t)) u = Ok (b_ct (nth j res no_bres)) /\ interp (y_P (t_set t)) u = Ok (b_p (nth j res no_bres)).
(** wakes that grow with the turbulence at the turbines, and wakes that grow with the turbulence of the state *)
Definition own_ti : bres -> R := b_ti.
Definition state_ti (g : bscene) : bres -> R := fun _ => b_ti0 g.
(** reasonable models *)
Definition good_both (g : bscene) : Prop :=
  good_scene (b_c g) /\ 0 <= b_ti0 g /\ 0 <= b_ka g /\ 0 <= b_kb g /\ (forall D f x r, 0 < D -> 0 <= b_added g D f x r) /\ is_ws (b_ts g) = false /\ pow_ok (b_ts g).
