(** Specification for C258: wakes that are mirrored at horizontal planes. *)
From Verif Require Import RBase Superp_Model Superp_Spec Curves_Model Curves_Spec Symm_Model Whole_Model Whole_Spec Flow_Spec.
Local Open Scope R_scope.

(** the mirror image of a turbine at the horizontal plane of height h: as far below the plane as the turbine is above it *)
Definition image (h : R) (s : turb ttype) : turb ttype := mkturb (vx (t_pos s), vy (t_pos s), 2 * h - vz (t_pos s)) (t_diam s) (t_set s).
(** the turbines and their images at all planes, the images with the results of their turbines *)
Definition with_images (hs : list R) (farm : list (turb ttype)) (res : list tres) : list (turb ttype * tres) :=
  flat_map (fun j => let s := nth j farm no_turb in let f := nth j res no_res in (s, f) :: map (fun h => (image h s, f)) hs) (seq 0 (length farm)).
(** the wind speed that the superposed wakes of all turbines and images leave over at a point *)
Definition mirror_wind (c : scene) (hs : list R) (farm : list (turb ttype)) (res : list tres) (p : vec3) : R :=
  limited (c_low c) (c_high c) (c_wsp c + combination (c_s c) false (c_wsp c) (map (fun sf => effect c (fst sf) (snd sf) (probe p)) (with_images hs farm res))).
(** balance: every turbine has that wind speed at its hub, and the thrust and power that belong to it *)
Definition mirror_balanced (c : scene) (hs : list R) (farm : list (turb ttype)) (res : list tres) : Prop :=
  length res = length farm /\
  forall j, (j < length farm)%nat -> let t := nth j farm no_turb in let u := mirror_wind c hs farm res (t_pos t) in
    r_ws (nth j res no_res) = u /\ interp (y_C (t_set t)) u = Ok (r_ct (nth j res no_res)) /\ interp (y_P (t_set t)) u = Ok (r_p (nth j res no_res)).
(** a point is out of reach of the wake of s: not behind it, or beside its Jensen wake *)
Definition out_of_reach (c : scene) (s : turb ttype) (p : vec3) : Prop :=
  behind (c_wd c) s (probe p) <= 0 \/ (c_def c = Jensen /\ t_diam s / 2 + y_k (t_set s) * behind (c_wd c) s (probe p) <= beside (c_wd c) s (probe p)).
(** the mirror image of a point *)
Definition image_point (h : R) (p : vec3) : vec3 := (vx p, vy p, 2 * h - vz p).
