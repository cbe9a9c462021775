(** Specification for C266: wakes and blockage of all turbines together. *)
From Verif Require Import RBase Superp_Model Superp_Spec Curves_Model Curves_Spec Symm_Model Whole_Model Whole_Spec UpWake_Model UpWake_Spec Joint_Model.
Local Open Scope R_scope.

(** the wakes that the other turbines, with the given results, have at turbine j *)
Definition other_wakes (c : scene) (farm : list (turb ttype)) (res : list tres) (j : nat) : list contrib :=
  map (fun i => effect c (nth i farm no_turb) (nth i res no_res) (nth j farm no_turb)) (filter (fun i => negb (Nat.eqb i j)) (seq 0 (length farm))).
(** change of the wind speed within the limits of a superposition *)
Definition change (c : scene) (cs : list contrib) : R := limited (c_low c) (c_high c) (c_wsp c + combination (c_s c) false (c_wsp c) cs) - c_wsp c.
(** the choice of the blockage model: the wind and the induction of the state, its own superposition, limits and scaling *)
Definition blockage_scene (g : jset) : scene :=
  let c := j_c g in
  {| c_wd := c_wd c; c_wsp := c_wsp c; c_def := c_def c; c_ctmax := c_ctmax c; c_s := j_s g; c_low := j_low g; c_high := j_high g; c_amb := j_amb g |}.
(** wind speed that the wakes and the blockage of the other turbines leave over at turbine j *)
Definition left_over (g : jset) (farm : list (turb ttype)) (res : list tres) (j : nat) : R :=
  c_wsp (j_c g) + change (j_c g) (other_wakes (j_c g) farm res j) + change (blockage_scene g) (other_effects (blockage_scene g) (j_b g) farm res j).
(** the new results follow from the old ones: every turbine has the wind speed that is left over, and the thrust and power that belong to it *)
Definition follows (g : jset) (farm : list (turb ttype)) (old new : list tres) : Prop :=
  length new = length farm /\
  forall j, (j < length farm)%nat ->
    r_ws (nth j new no_res) = left_over g farm old j /\
    interp (y_C (t_set (nth j farm no_turb))) (left_over g farm old j) = Ok (r_ct (nth j new no_res)) /\
    interp (y_P (t_set (nth j farm no_turb))) (left_over g farm old j) = Ok (r_p (nth j new no_res)).
(** results that fit together *)
Definition settled (g : jset) (farm : list (turb ttype)) (res : list tres) : Prop := follows g farm res res.
(** reasonable models *)
Definition good_joint (g : jset) : Prop := good_scene (j_c g) /\ good_scene (blockage_scene g).
(** both orders of the two models *)
Definition both_models (g : jset) (ms : list (smodel ttype tres R R)) : Prop := ms = [deficit_model g; blockage_model g] \/ ms = [blockage_model g; deficit_model g].
(** ambient results *)
Definition undisturbed (g : jset) (farm : list (turb ttype)) (res : list tres) : Prop :=
  length res = length farm /\
  forall j, (j < length farm)%nat -> r_ws (nth j res no_res) = c_wsp (j_c g) /\
    interp (y_C (t_set (nth j farm no_turb))) (c_wsp (j_c g)) = Ok (r_ct (nth j res no_res)) /\ interp (y_P (t_set (nth j farm no_turb))) (c_wsp (j_c g)) = Ok (r_p (nth j res no_res)).
(** Thrust coefficients that are the same at all wind speeds that the limits of the two superpositions allow, and effects that refer to the ambient wind speed. *)
Definition constant_thrust (g : jset) (farm : list (turb ttype)) : Prop :=
  c_amb (j_c g) = true /\ j_amb g = true /\
  exists l1 l2 h1 h2, c_low (j_c g) = Some l1 /\ j_low g = Some l2 /\ c_high (j_c g) = Some h1 /\ j_high g = Some h2 /\
    forall t u, In t farm -> l1 + l2 - c_wsp (j_c g) <= u <= h1 + h2 - c_wsp (j_c g) -> interp (y_C (t_set t)) u = interp (y_C (t_set t)) (c_wsp (j_c g)).
