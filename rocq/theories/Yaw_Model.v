(** Yawed wakes: foxes/models/wake_models/wind/bastankhah16.py and foxes/models/wake_frames/yawed_wakes.py. One state and one
    target unless stated otherwise; angles in radians (182, 556). *)
From Verif Require Import RBase WindDir_Model.
Local Open Scope R_scope.

(** values of the wake causing turbine and model parameters -- bastankhah16.py:52-250 *)
Record ypar := { yD : R; yct : R; yti : R; yalpha : R; ybeta : R; yk : R; ygamma : R }.
Section B16.
Variables (ct2a : R -> R) (p : ypar).
(** bastankhah16.py:200-252: np.cos(gamma) *)
Definition cosg : R := cos (ygamma p).
(** 246-248 *)
Definition theta : R := 0.3 * ygamma p / cosg * (2 * ct2a (yct p * cosg)).
(** 251-252 *)
Definition twoa : R := 2 * ct2a (yct p).
(** bastankhah16.py:251-252 *)
Definition x0 : R := yD p * cosg * (2 - twoa) / (sqrt 2 * (4 * yalpha p * yti p + ybeta p * twoa)).
(** 256-259 *)
Definition sigma_y0 : R := yD p * cosg / sqrt 8.
(** bastankhah16.py:256-259 *)
Definition sigma_z0 : R := yD p / sqrt 8.
(** bastankhah16.py:256-259 *)
Definition sigma_y (x : R) : R := yk p * (x - x0) + sigma_y0.
(** bastankhah16.py:256-259 *)
Definition sigma_z (x : R) : R := yk p * (x - x0) + sigma_z0.
(** 184 and 262 *)
Definition selected (x : R) : bool := Rltb 1e-8 x && Rltb 1e-8 (yct p).
(** bastankhah16.py:184, 262 *)
Definition near (x : R) : bool := Rltb x x0.
(** near wake, 272-286 *)
Definition r_pc0 : R := 0.5 * yD p * sqrt ((0.5 * yct p * cosg / (2 * ct2a (yct p * cosg))) / (1 - twoa)).
(** bastankhah16.py:272-286 *)
Definition r_pc (x : R) : R := r_pc0 - x / x0 * r_pc0.
(** bastankhah16.py:272-286 *)
Definition r_pc_s (x : R) : R := x / x0 * sigma_y0.
(** bastankhah16.py:272-286 *)
Definition ampl_near : R := (1 - twoa) - 1.
(** bastankhah16.py:272-286 *)
Definition delta_near (x : R) : R := theta * x.
(** far wake, 307-323 *)
Definition sqsd (x : R) : R := sqrt (8 * sigma_y x * sigma_z x / (cosg * (yD p * yD p))).
(** bastankhah16.py:307-323 *)
Definition delta_far (x : R) : R :=
  let sqct := sqrt (yct p) in
  theta * x0 + yD p * theta / 14.7 * sqrt (cosg / (yct p * (yk p * yk p))) * (2.9 + 1.3 * (1 - twoa) - yct p)
    * ln (((1.6 + sqct) * (1.6 * sqsd x - sqct)) / ((1.6 - sqct) * (1.6 * sqsd x + sqct))).
(** bastankhah16.py:307-323 *)
Definition ct_eff (x : R) : R := yct p * cosg * (yD p * yD p) / (8 * sigma_y x * sigma_z x).
(** bastankhah16.py:307-323 *)
Definition ampl_far (x : R) : R := Rmax (-2 * ct2a (ct_eff x)) (-1).
(** YawedWakes._update_y, yawed_wakes.py:202-228: the value subtracted from y *)
Definition deflection (x : R) : R := if selected x then if near x then delta_near x else delta_far x else 0.
(** Bastankhah2016.calc_wakes_x_yz, bastankhah16.py:572-624 *)
Definition near_factor (x r : R) : R := if Rltb (r_pc x) r then exp (- 0.5 * (((r - r_pc x) / r_pc_s x) * ((r - r_pc x) / r_pc_s x))) else 1.
(** bastankhah16.py:572-624 *)
Definition far_factor (x y z : R) : R := exp (- 0.5 * ((y / sigma_y x) * (y / sigma_y x))) * exp (- 0.5 * ((z / sigma_z x) * (z / sigma_z x))).
(** bastankhah16.py:572-624 *)
Definition deficit (x y z : R) : R :=
  if selected x then if near x then ampl_near * near_factor x (sqrt (y * y + z * z)) else ampl_far x * far_factor x y z else 0.
End B16.

(** --- the wake frame, for the base frame RotorWD --- [ydef]: deflection as function of x (one state, one turbine) *)
(** get_wake_coos, yawed_wakes.py:262-280: one target, its points and the point weights *)
Fixpoint wavg (w : list R) (v : list R) : R := match w, v with a :: w', b :: v' => a * b + wavg w' v' | _, _ => 0 end.
(** yawed_wakes.py:262-280 *)
Definition yawed_coos (ydef : R -> R) (rotor : vec3) (wd : R) (ws : list R) (ps : list vec3) : list vec3 :=
  let cs := map (wake_coos rotor wd) ps in
  let x := wavg ws (map vx cs) in
  let y := wavg ws (map vy cs) - ydef x in
  map (fun c => (vx c, y, vz c)) cs.
(** get_centreline_points, 306-329; [n] points *)
Definition vadd (a b : vec3) : vec3 := (vx a + vx b, vy a + vy b, vz a + vz b).
(** numpy scaling, yawed_wakes.py:306-329 *)
Definition vscale (k : R) (a : vec3) : vec3 := (k * vx a, k * vy a, k * vz a).
(** np.linalg.norm, yawed_wakes.py:306-329 *)
Definition vnorm (a : vec3) : R := sqrt (dot a a).
(** yawed_wakes.py:306-329 *)
Definition tangent (n : nat) (q : nat -> vec3) (j : nat) : vec3 :=
  let t := if (j =? 0)%nat then vsub (q 1%nat) (q 0%nat)
           else if (j =? n - 1)%nat then vsub (q (n - 1)%nat) (q (n - 2)%nat)
           else vadd (vscale 0.5 (vsub (q j) (q (j - 1)%nat))) (vscale 0.5 (vsub (q (j + 1)%nat) (q j))) in
  vscale (1 / vnorm t) t.
(** np.cross((0, 0, 1), t) *)
Definition side (t : vec3) : vec3 := (- vy t, vx t, 0).
(** yawed_wakes.py:306-329 *)
Definition yawed_centreline (ydef : R -> R) (rotor : vec3) (wd : R) (n : nat) (x : nat -> R) (j : nat) : vec3 :=
  let q := fun i => centreline_point rotor wd (x i) in
  let y := 0 - ydef (x j) in
  vadd (q j) (vscale y (side (tangent n q j))).

(** --- the cache in mdata --- [K]: the check value (152-157), chunk, downwind index and hash of x; [D]: the computed data.
    has_data (355-361) compares the check value, not the stored parameters; the key in mdata is the same for all models (35) *)
Section Cache.
Context {K P D : Type}.
Variables (Keq : K -> K -> bool) (calc : P -> K -> D).
(** Bastankhah2016.calc_wakes_x_yz, 544-572: the data used by a wake model with parameters [q] *)
Definition use (c : option (K * D)) (k : K) (q : P) : option (K * D) * D :=
  match c with
  | Some (k', d) => if Keq k' k then (c, d) else (Some (k, calc q k), calc q k)
  | None => (Some (k, calc q k), calc q k)
  end.
(** successive calls: which parameters, which key; the data used by each -- bastankhah16.py:335-387: successive calls on one shared data object *)
Fixpoint uses (c : option (K * D)) (l : list (K * P)) : list D :=
  match l with [] => [] | (k, q) :: l' => let '(c', d) := use c k q in d :: uses c' l' end.
End Cache.
