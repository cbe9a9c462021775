(** Specification for C257: a farm whose rotors are averaged over several points. *)
From Verif Require Import RBase WindDir_Model Rotor_Model Superp_Model Superp_Spec Curves_Model Curves_Spec Symm_Model Whole_Model Whole_Spec Flow_Spec Rotors_Model.
Local Open Scope R_scope.

(** positive weights with sum one *)
Definition good_weights (rule : list rpt) : Prop := (forall p, In p rule -> 0 < pw p) /\ rsum (map pw rule) = 1.
(** the wind speed has a lower limit that is not negative *)
Definition floor_at_zero (c : scene) : Prop := exists l, c_low c = Some l /\ 0 <= l.
(** a point of a rotor that faces the wind from wd degrees: py and pz are the horizontal and the vertical distance from the hub, in units of the radius *)
Definition on_rotor (wd : R) (t : turb ttype) (p : rpt) : vec3 :=
  (vx (t_pos t) + t_diam t / 2 * py p * cos (wd * PI / 180), vy (t_pos t) - t_diam t / 2 * py p * sin (wd * PI / 180), vz (t_pos t) + t_diam t / 2 * pz p).
(** weighted mean of a power of the wind speed over the rotor *)
Definition mean_power (rule : list rpt) (k : nat) (u : rpt -> R) : R := rsum (map (fun p => pw p * u p ^ k) rule).
(** Balance: at every rotor point the wind speed that the superposed wakes of all turbines leave over; the three effective wind speeds are the means of its first, second and third power; thrust
    and power belong to the second and the third one. *)
Definition rotor_balanced (c : scene) (rule : list rpt) (farm : list (turb ttype)) (res : list rres) : Prop :=
  length res = length farm /\
  forall j, (j < length farm)%nat ->
    let t := nth j farm no_turb in let f := nth j res no_rres in let u p := wind_at c farm (map as_tres res) (on_rotor (c_wd c) t p) in
    q_ws f = mean_power rule 1 u /\ (0 <= q_ws2 f /\ q_ws2 f ^ 2 = mean_power rule 2 u) /\ (0 <= q_ws3 f /\ q_ws3 f ^ 3 = mean_power rule 3 u) /\
    interp (y_C (t_set t)) (q_ws2 f) = Ok (q_ct f) /\ interp (y_P (t_set t)) (q_ws3 f) = Ok (q_p f).
