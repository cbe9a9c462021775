(** Complete farm calculations with a wind deficit model and a turbulence model: as in Whole_Model, but the wake growth follows the turbulence intensity, k = ka TI + kb (core/wake_model.py:314-326), and a second
    wake model adds turbulence. One state of uniform wind and turbulence. *)
From Verif Require Export RBase WindDir_Model Rotor_Model Superp_Model Curves_Model Symm_Model AnyOrder_Model Whole_Model.
Local Open Scope R_scope.

(** results of a turbine: REWS, TI, CT, P *)
Record bres := { b_ws : R; b_ti : R; b_ct : R; b_p : R }.
(** the wind, the wind deficit model and its superposition as in Whole_Model; the turbulence intensity of the state; ka and kb; the turbulence that a rotor of the given diameter and results adds at the
    distance x behind and r beside it, with its superposition (models/wake_models/ti, models/wake_superpositions/ti_*.py) *)
Record bscene := { b_c : scene; b_ti0 : R; b_ka : R; b_kb : R; b_added : R -> bres -> R -> R -> R; b_ts : superp; b_quad : bool }.
(** the part of the results that the wind deficit model reads *)
Definition as_tres (f : bres) : tres := {| r_ws := b_ws f; r_ct := b_ct f; r_p := b_p f |}.
(** a turbine type with another wake growth parameter; core/wake_model.py:314-326 *)
Definition type_k (y : ttype) (k : R) : ttype := {| y_P := y_P y; y_C := y_C y; y_k := k |}.
(** rotor results: wind speed and turbulence intensity; turbine results: PCt_file.py:336-347 *)
Definition turbine_both (y : ttype) (w : R * R) : bres := {| b_ws := fst w; b_ti := snd w; b_ct := value (y_C y) (fst w); b_p := value (y_P y) (fst w) |}.
(** the wind deficit model; k from the turbulence intensity in the farm data of the wake causing turbine at the time of the call, core/wake_model.py:314-326, wake_frame.py:147-158 *)
Definition wind_smodel (g : bscene) : smodel ttype bres R (R * R) :=
  mks true (fun _ _ => 0)
    (fun y D f qs _ _ d => match qs with [q] => add_wake (c_s (b_c g)) d (wake_contrib (b_c g) (type_k y (b_ka g * b_ti f + b_kb g)) D (as_tres f) q) | _ => d end)
    (fun _ _ w d => (fst w + final_delta (c_s (b_c g)) false (c_low (b_c g)) (c_high (b_c g)) (c_wsp (b_c g)) d, snd w)).
(** the selection of top_hat.py:211 and the added turbulence *)
Definition ti_contrib (g : bscene) (D : R) (f : bres) (q : vec3) : contrib :=
  if Rltb 1e-8 (vx q) && Rltb 1e-8 (b_ct f) then Some (1, b_added g D f (vx q) (sqrt (vy q * vy q + vz q * vz q))) else None.
(** the turbulence model *)
Definition ti_smodel (g : bscene) : smodel ttype bres R (R * R) :=
  mks true (fun _ _ => 0)
    (fun y D f qs _ _ d => match qs with [q] => add_wake (b_ts g) d (ti_contrib g D f q) | _ => d end)
    (fun _ _ w d => (fst w, snd w + final_delta (b_ts g) (b_quad g) None None (b_ti0 g) d)).
(** uniform wind and turbulence, input/states/single.py:160-224 *)
Definition uniform_ti (g : bscene) : field R := fun _ => mkair (c_wd (b_c g)) (c_wsp (b_c g)) (b_ti0 g).
(** ambient rotor results *)
Definition amb_both (ws ti : R) : R * R := (ws, ti).
(** unused default value *)
Definition no_bres : bres := {| b_ws := 0; b_ti := 0; b_ct := 0; b_p := 0 |}.
(** Downwind.calc_farm with the listed wake models; algorithms/downwind/downwind.py:422-470 *)
Definition downwind_results (g : bscene) (ms : list (smodel ttype bres R (R * R))) (farm : list (turb ttype)) : result (list bres) :=
  calc amb_both turbine_both centre_points no_turb no_bres 0 (uniform_ti g) ms farm.
(** Iterative.calc_farm after k sweeps with wakes; algorithms/iterative/iterative.py:270-345, models/farm_wakes_calc.py:90-163 *)
Definition iterative_results (g : bscene) (ms : list (smodel ttype bres R (R * R))) (farm : list (turb ttype)) (k : nat) : list bres :=
  let o := argsort Rleb (along (uniform_ti g) farm) in
  gather no_bres (sweeps (amb amb_both (uniform_ti g)) (ev turbine_both) (map (as_model centre_points (uniform_ti g)) ms) (gather no_turb farm o) k) (invert o).
