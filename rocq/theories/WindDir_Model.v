(** Wind directions, wind vectors and yaw angles, and the default wake frame's coordinates.
    Element-wise numpy operations are modelled on one element. *)
From Verif Require Import RBase.
Local Open Scope R_scope.

(** foxes/utils/wind_dir.py:115-142 delta_wd, one element: two masked in-place updates in sequence. *)
Definition delta_wd (wd_a wd_b : R) : R :=
  let out := wd_b - wd_a in
  let out := if Rltb out (-180) then out + 360 else out in
  if Rltb 180 out then out - 360 else out.

(** foxes/utils/wind_dir.py:4-33 wd2wdvec *)
Definition wd2wdvec (wd ws : R) : R * R :=
  let wdr := wd * PI / 180 in (ws * sin wdr, ws * cos wdr).
(** foxes/utils/wind_dir.py:36-59 wd2uv *)
Definition wd2uv (wd ws : R) : R * R := let n := wd2wdvec wd ws in (- fst n, - snd n).
(** numpy's arctan2(y, x) on real numbers (signed zeros are not modelled; arctan2(0,0)=0). *)
Definition atan2 (y x : R) : R :=
  if Rltb 0 x then atan (y / x)
  else if Rltb x 0 then (if Rltb y 0 then atan (y / x) - PI else atan (y / x) + PI)
  else if Rltb 0 y then PI / 2 else if Rltb y 0 then - (PI / 2) else 0.
(** foxes/utils/wind_dir.py:62-90 uv2wd *)
Definition uv2wd (uv : R * R) : R := rmod (180 + atan2 (fst uv) (snd uv) * 180 / PI) 360.
(** foxes/utils/wind_dir.py:93-112 wdvec2wd *)
Definition wdvec2wd (v : R * R) : R := uv2wd (- fst v, - snd v).

(** foxes/models/turbine_models/yaw2yawm.py:58-62 *)
Definition yaw2yawm (wd yaw : R) : R := delta_wd wd yaw.
(** foxes/models/turbine_models/yawm2yaw.py:59-63 *)
Definition yawm2yaw (wd yawm : R) : R := rmod (wd + yawm) 360.

(** foxes/models/wake_frames/rotor_wd.py:100-119 RotorWD.get_wake_coos for one point: rows n, m, e_z. *)
Definition vec3 := (R * R * R)%type.
(** component of a vector, foxes/models/wake_frames/rotor_wd.py:100-119 *)
Definition vx (v : vec3) := fst (fst v).
(** component of a vector, foxes/models/wake_frames/rotor_wd.py:100-119 *)
Definition vy (v : vec3) := snd (fst v).
(** component of a vector, foxes/models/wake_frames/rotor_wd.py:100-119 *)
Definition vz (v : vec3) := snd v.
(** numpy difference, foxes/models/wake_frames/rotor_wd.py:100-119 *)
Definition vsub (a b : vec3) : vec3 := (vx a - vx b, vy a - vy b, vz a - vz b).
(** np.einsum, foxes/models/wake_frames/rotor_wd.py:100-119 *)
Definition dot (a b : vec3) : R := vx a * vx b + vy a * vy b + vz a * vz b.
(** foxes/models/wake_frames/rotor_wd.py:100-119 *)
Definition wake_coos (rotor : vec3) (wd : R) (p : vec3) : vec3 :=
  let delta := vsub p rotor in
  let n := wd2uv wd 1 in
  let nax0 := (fst n, snd n, 0) in
  let nax1 := (- snd n, fst n, 0) in
  let nax2 := (0, 0, 1) in
  (dot delta nax0, dot delta nax1, dot delta nax2).
(** foxes/models/wake_frames/rotor_wd.py:145-149 get_centreline_points, one point at distance x. *)
Definition centreline_point (rotor : vec3) (wd x : R) : vec3 :=
  let n := wd2uv wd 1 in (vx rotor + x * fst n, vy rotor + x * snd n, vz rotor + x * 0).
